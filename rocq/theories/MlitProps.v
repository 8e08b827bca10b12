(** * C86: the schema of a map literal. *)
From Coq Require Import Ascii.
From stdpp Require Import base list strings gmap.
From Verif Require Import StrLib FieldModel FieldProofs SpcModel SpcProps SinkModel.

(** ** What the literal says *)
(** A literal of a map with string keys and its entries. *)
Definition string_map (arg : carg) : Prop :=
  ca_kind arg = AKComposite ∧ ∃ m k, ca_x arg = Some m ∧ ca_kind m = AKMapType ∧ ca_x m = Some k ∧ ca_name k = "string".
(** An entry whose key is the source text [raw] of a literal. *)
Definition entry (elt : option carg) (raw : string) (v : carg) : Prop :=
  ∃ e k, elt = Some e ∧ ca_kind e = AKKeyValue ∧ ca_x e = Some k ∧ ca_fun e = Some v ∧ ca_kind k = AKLiteral ∧ ca_value k = raw.
(** The text of an interpreted string literal for a name without escapes. *)
Definition quoted_text (key : string) : string := String dq (key +:+ String dq "").
(** A text in double quotes: [body] is what stands between the first quote and the one that ends it. *)
Definition plain (key : string) : Prop := contains_byte dq key = false ∧ contains_byte "\"%char key = false ∧ contains_byte "010"%char key = false.
(** The name that an entry gives a property. *)
Definition names_key (unescape : string → option string) (elt : option carg) (key : string) (v : carg) : Prop :=
  key ≠ "" ∧ ∃ body, entry elt (String dq body) v ∧ ∃ inner, quoted body = Some (inner, "") ∧ unquote unescape inner = Some key.

(** ** Proofs *)
Lemma constant_key_value_spec unescape elt key v : constant_key_value unescape elt = Some (key, v) ↔ names_key unescape elt key v.
Proof.
  unfold constant_key_value, names_key, entry. split.
  - destruct elt as [e|]; cbn [mbind option_bind]; [|done]. destruct (decide (ca_kind e = AKKeyValue)) as [H1|]; [|done]. destruct (ca_x e) as [k|] eqn:Ek; cbn [mbind option_bind]; [|done].
    destruct (ca_fun e) as [v'|] eqn:Ev; cbn [mbind option_bind]; [|done]. destruct (decide (ca_kind k = AKLiteral)) as [H2|]; [|done]. destruct (has_prefix (String dq "") (ca_value k)) eqn:Ep; [|done].
    apply has_prefix_spec in Ep as [body Eb]. change (String dq "" +:+ body) with (String dq body) in Eb. rewrite Eb. cbn [unquote_text]. destruct (quoted body) as [[inner [|? ?]]|] eqn:Eq; try done.
    destruct (unquote unescape inner) as [key'|] eqn:Eu; [|done]. destruct (decide (key' = "")) as [|Hne]; [done|]. intros [= -> ->]. split; [done|]. exists body. split; [|by exists inner].
    exists e, k. done.
  - intros (Hne & body & (e & k & -> & H1 & H2 & H3 & H4 & H5) & inner & Hq & Hu). cbn [mbind option_bind]. rewrite decide_True by done. rewrite H2, H3. cbn [mbind option_bind]. rewrite decide_True by done. rewrite H5.
    assert (has_prefix (String dq "") (String dq body) = true) as -> by (apply has_prefix_spec; by exists body). cbn [unquote_text]. rewrite Hq, Hu. by rewrite decide_False.
Qed.
Lemma foldl_last {A V} (g : A → option (string * V)) (l : list A) : ∀ (m : gmap string V) k v,
  foldl (λ m e, match g e with Some (k, v) => <[k := v]> m | None => m end) m l !! k = Some v ↔
  (∃ l1 e l2, l = l1 ++ e :: l2 ∧ g e = Some (k, v) ∧ ∀ e' v', e' ∈ l2 → g e' ≠ Some (k, v')) ∨ (m !! k = Some v ∧ ∀ e v', e ∈ l → g e ≠ Some (k, v')).
Proof.
  induction l as [|e l IH]; intros m k v; cbn [foldl].
  - split; [intros ?; right; split; [done|]; by intros ? ? ?%elem_of_nil|]. intros [(l1 & e & l2 & H & _)|[? _]]; [by destruct l1|done].
  - rewrite IH. destruct (g e) as [[k' v']|] eqn:E.
    + split.
      * intros [(l1 & e0 & l2 & -> & Hg & Hn)|[Hm Hn]].
        -- left. exists (e :: l1), e0, l2. done.
        -- destruct (decide (k' = k)) as [->|Hne].
           ++ rewrite lookup_insert in Hm. injection Hm as ->. left. exists [], e, l. done.
           ++ rewrite lookup_insert_ne in Hm by done. right. split; [done|]. intros e' v2 [->|?]%elem_of_cons; [congruence|by apply Hn].
      * intros [([|e1 l1] & e0 & l2 & Heq & Hg & Hn)|[Hm Hn]].
        -- cbn in Heq. injection Heq as -> ->. rewrite E in Hg. injection Hg as -> ->. right. split; [apply lookup_insert|done].
        -- cbn in Heq. injection Heq as -> ->. left. by exists l1, e0, l2.
        -- right. destruct (decide (k' = k)) as [->|Hne]; [by destruct (Hn e v'); [left|]|]. rewrite lookup_insert_ne by done. split; [done|]. intros e' v2 ?. apply Hn. by right.
    + split.
      * intros [(l1 & e0 & l2 & -> & Hg & Hn)|[Hm Hn]]; [left; by exists (e :: l1), e0, l2|]. right. split; [done|]. intros e' v2 [->|?]%elem_of_cons; [congruence|by apply Hn].
      * intros [([|e1 l1] & e0 & l2 & Heq & Hg & Hn)|[Hm Hn]].
        -- cbn in Heq. injection Heq as -> ->. congruence.
        -- cbn in Heq. injection Heq as -> ->. left. by exists l1, e0, l2.
        -- right. split; [done|]. intros e' v2 ?. apply Hn. by right.
Qed.
Lemma last_such {A} (P : A → Prop) `{!∀ x, Decision (P x)} (l : list A) x : x ∈ l → P x → ∃ l1 e l2, l = l1 ++ e :: l2 ∧ P e ∧ ∀ e', e' ∈ l2 → ¬ P e'.
Proof.
  induction l as [|a l IH] using rev_ind; intros Hx HP; [by apply elem_of_nil in Hx|]. destruct (decide (P a)) as [Ha|Ha].
  - exists l, a, []. split; [done|]. split; [done|]. by intros ? ?%elem_of_nil.
  - apply elem_of_app in Hx as [Hx| ->%elem_of_list_singleton]; [|done]. destruct (IH Hx HP) as (l1 & e & l2 & -> & He & Hn). exists l1, e, (l2 ++ [a]).
    split; [by rewrite <- app_assoc|]. split; [done|]. intros e' [?| ->%elem_of_list_singleton]%elem_of_app; [by apply Hn|done].
Qed.
Section proofs.
  Context (unescape : string → option string) {S : Type} (resolve : carg → string) (schema_of : string → option S) (any_schema : S).
  Notation fold arg := (foldl (λ props elt, match constant_key_value unescape elt with Some (key, v) => <[key := value_schema resolve schema_of any_schema v]> props | None => props end) ∅ (ca_args arg)).
  Lemma fold_spec arg key s : (fold arg : gmap string S) !! key = Some s ↔
    ∃ l1 e l2 v, ca_args arg = l1 ++ e :: l2 ∧ names_key unescape e key v ∧ s = value_schema resolve schema_of any_schema v ∧ ∀ e' v', e' ∈ l2 → ¬ names_key unescape e' key v'.
  Proof.
    set (g := λ elt, match constant_key_value unescape elt with Some (key, v) => Some (key, value_schema resolve schema_of any_schema v) | None => None end).
    assert (∀ e k s0, g e = Some (k, s0) ↔ ∃ v, names_key unescape e k v ∧ s0 = value_schema resolve schema_of any_schema v) as Hg.
    { intros e k s0. unfold g. destruct (constant_key_value unescape e) as [[k' v]|] eqn:E.
      - split; [intros [= -> <-]; exists v; split; [by apply constant_key_value_spec|done]|]. intros (v' & H & ->). apply constant_key_value_spec in H. congruence.
      - split; [done|]. intros (v' & H & _). apply constant_key_value_spec in H. congruence. }
    assert (fold arg = foldl (λ m e, match g e with Some (k, v) => <[k := v]> m | None => m end) ∅ (ca_args arg)) as ->.
    { generalize (∅ : gmap string S). induction (ca_args arg) as [|e l IH]; intros m; [done|]. cbn [foldl]. rewrite IH. f_equal. unfold g. by destruct (constant_key_value unescape e) as [[? ?]|]. }
    rewrite foldl_last. split.
    - intros [(l1 & e & l2 & -> & He & Hn)|[? _]]; [|done]. apply Hg in He as (v & Hv & ->). exists l1, e, l2, v. split; [done|]. split; [done|]. split; [done|].
      intros e' v' He' H. apply (Hn e' (value_schema resolve schema_of any_schema v') He'). apply Hg. by exists v'.
    - intros (l1 & e & l2 & v & -> & Hv & -> & Hn). left. exists l1, e, l2. split; [done|]. split; [apply Hg; by exists v|]. intros e' s' He' H. apply Hg in H as (v' & H & _). by apply (Hn e' v').
  Qed.
  Lemma map_literal_spec arg r : map_literal unescape resolve schema_of any_schema arg = Some r ↔ string_map arg ∧ (fold arg : gmap string S) ≠ ∅ ∧ r = (fold arg, existsb (λ elt, bool_decide (constant_key_value unescape elt = None)) (ca_args arg)).
  Proof.
    unfold map_literal, string_map. split.
    - destruct (decide (ca_kind arg = AKComposite)) as [H1|]; [|done]. destruct (ca_x arg) as [m|]; cbn; [|done]. destruct (decide (ca_kind m = AKMapType)) as [H2|]; [|done].
      destruct (ca_x m) as [k|] eqn:Ek; cbn; [|done]. destruct (decide (ca_name k = "string")) as [H3|]; [|done]. destruct (decide (_ = ∅)) as [|Hne]; [done|]. intros [= <-].
      split; [|done]. split; [done|]. by exists m, k.
    - intros ((H1 & m & k & H2 & H3 & H4 & H5) & Hne & ->). rewrite decide_True by done. rewrite H2. cbn. rewrite decide_True by done. rewrite H4. cbn. rewrite decide_True by done. by rewrite decide_False.
  Qed.
End proofs.

(** ** Theorems *)
(** The properties of the schema are exactly the names its entries give, each with the schema of its value
    (the last one of a name); more properties are possible exactly when some entry names none. *)
Theorem C86_exact (unescape : string → option string) {S : Type} (resolve : carg → string) (schema_of : string → option S) (any_schema : S) (arg : carg) (props : gmap string S) (open : bool) :
  map_literal unescape resolve schema_of any_schema arg = Some (props, open) →
  string_map arg ∧ props ≠ ∅ ∧
  (∀ key s, props !! key = Some s ↔ ∃ l1 e l2 v, ca_args arg = l1 ++ e :: l2 ∧ names_key unescape e key v ∧
     s = (if decide (resolve v = "") then any_schema else default any_schema (schema_of (resolve v))) ∧ ∀ e' v', e' ∈ l2 → ¬ names_key unescape e' key v') ∧
  (open = true ↔ ∃ e, e ∈ ca_args arg ∧ ∀ key v, ¬ names_key unescape e key v).
Proof.
  intros H. apply map_literal_spec in H as (Hm & Hne & [= -> ->]). split; [done|]. split; [done|]. split; [intros key s; apply fold_spec|].
  rewrite existsb_exists. split.
  - intros (e & He & Hb). apply bool_decide_eq_true in Hb. exists e. split; [by apply elem_of_list_In|]. intros key v Hk. apply constant_key_value_spec in Hk. congruence.
  - intros (e & He & Hn). exists e. split; [by apply elem_of_list_In|]. apply bool_decide_eq_true. destruct (constant_key_value unescape e) as [[key v]|] eqn:E; [|done].
    apply constant_key_value_spec in E. by destruct (Hn key v).
Qed.
(** The literal is read exactly when it is a map with string keys and some entry names a property. *)
Theorem C86_read (unescape : string → option string) {S : Type} (resolve : carg → string) (schema_of : string → option S) (any_schema : S) (arg : carg) :
  is_Some (map_literal unescape resolve schema_of any_schema arg) ↔ string_map arg ∧ ∃ e key v, e ∈ ca_args arg ∧ names_key unescape e key v.
Proof.
  split.
  - intros [[props open] H]. destruct (C86_exact _ _ _ _ _ _ _ H) as (Hm & Hne & Hx & _). split; [done|]. apply map_choose in Hne as (key & s & Hk). apply Hx in Hk as (l1 & e & l2 & v & -> & Hk & _).
    exists e, key, v. split; [apply elem_of_app; right; left|done].
  - intros (Hm & e & key & v & He & Hk). eexists. apply map_literal_spec. split; [done|]. split; [|done]. intros H0.
    assert (∃ l1 e1 l2 v1, ca_args arg = l1 ++ e1 :: l2 ∧ names_key unescape e1 key v1 ∧ ∀ e' v', e' ∈ l2 → ¬ names_key unescape e' key v') as (l1 & e1 & l2 & v1 & Heq & Hk1 & Hn).
    { assert (∀ e0, fst <$> constant_key_value unescape e0 = Some key ↔ ∃ v0, names_key unescape e0 key v0) as Hd.
      { intros e0. rewrite fmap_Some. split; [intros ([k0 v0] & E & ->); exists v0; by apply constant_key_value_spec|]. intros (v0 & E). exists (key, v0). split; [by apply constant_key_value_spec|done]. }
      destruct (last_such (λ e0, fst <$> constant_key_value unescape e0 = Some key) (ca_args arg) e He) as (l1 & e1 & l2 & Heq & H1 & H2); [apply Hd; by exists v|].
      apply Hd in H1 as [v1 H1]. exists l1, e1, l2, v1. split; [done|]. split; [done|]. intros e' v' He' H. apply (H2 e' He'). apply Hd. by exists v'. }
    assert ((foldl (λ props elt, match constant_key_value unescape elt with Some (key, v) => <[key := value_schema resolve schema_of any_schema v]> props | None => props end) ∅ (ca_args arg) : gmap string S) !! key = Some (value_schema resolve schema_of any_schema v1)) as Hl.
    { apply fold_spec. exists l1, e1, l2, v1. done. }
    rewrite H0 in Hl. done.
Qed.
(** A key in double quotes without escapes names itself. *)
Theorem C86_plain (unescape : string → option string) (elt : option carg) (key : string) (v : carg) :
  plain key → entry elt (quoted_text key) v → ∀ key' v', names_key unescape elt key' v' ↔ key ≠ "" ∧ key' = key ∧ v' = v.
Proof.
  intros (H1 & H2 & H3) (e & k & -> & He1 & He2 & He3 & He4 & He5) key' v'. assert (quoted (key +:+ String dq "") = Some (key, "")) as Hq by (by apply quoted_plain).
  assert (unquote unescape key = Some key) as Hu by (unfold unquote; by rewrite H3, H2). split.
  - intros (Hne & body & (e' & k' & [= <-] & _ & Hx & Hf & _ & Hv) & inner & Hq' & Hu'). rewrite He2 in Hx. injection Hx as <-. rewrite He3 in Hf. injection Hf as <-.
    rewrite He5 in Hv. unfold quoted_text in Hv. injection Hv as <-. rewrite Hq in Hq'. injection Hq' as <-. rewrite Hu in Hu'. injection Hu' as <-. done.
  - intros (Hne & -> & ->). split; [done|]. exists (key +:+ String dq ""). split; [by exists e, k|]. by exists key.
Qed.
Print Assumptions C86_exact.
Print Assumptions C86_read.
Print Assumptions C86_plain.

(** ** Cases *)
Definition map_entry (raw v : string) : option carg :=
  Some (CArg AKKeyValue "" "" "" "" (Some (CArg AKLiteral "" "" "" raw None None None [])) (Some (ident v ("type of " +:+ v))) None []).
Definition lit_of (elts : list (option carg)) : carg :=
  CArg AKComposite "" "" "" "" (Some (CArg AKMapType "" "" "" "" (Some (ident "string" "")) None None [])) None None elts.
Definition ex_schema (t : string) : option string := if decide (t = "type of none") then None else Some t.
Example C86_example :
  map_literal Some ca_type ex_schema "any" (lit_of [map_entry (quoted_text "items") "list"; map_entry (quoted_text "total") "none"]) =
    Some ({["items" := "type of list"; "total" := "any"]}, false) ∧
  map_literal Some ca_type ex_schema "any" (lit_of [map_entry (quoted_text "items") "list"; map_entry "key" "x"]) = Some ({["items" := "type of list"]}, true) ∧
  map_literal Some ca_type ex_schema "any" (lit_of [map_entry "7" "list"]) = None ∧ map_literal Some ca_type ex_schema "any" (lit_of []) = None ∧
  plain "items".
Proof. split; [apply (bool_decide_unpack _); by vm_compute|]. by vm_compute. Qed.
(** Full statement, false: a constant string key names a property. A key in back quotes does not, and
    neither does the empty key. *)
Theorem C86_constant_refuted :
  map_literal Some ca_type ex_schema "any" (lit_of [map_entry (String backquote ("items" +:+ String backquote "")) "list"]) = None ∧
  map_literal Some ca_type ex_schema "any" (lit_of [map_entry (quoted_text "") "list"]) = None.
Proof. by vm_compute. Qed.
Print Assumptions C86_constant_refuted.
