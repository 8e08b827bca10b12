(** * C59: types over a declared type, and untyped constants. *)
From Coq Require Import Ascii.
From stdpp Require Import base numbers list strings gmap.
From Verif Require Import StrLib StrSplit StrSub DecLib PathModel TypeModel FieldModel GenModel NameModel WireModel WireSpec WireProofs WireProofs2.

Section spec.
  Context (has_format : string → string → Prop) (chars : string → Z) (key_text : string → string → Prop).
  (** What encoding/json writes for a value of a type over a declared type, if [J] is what it writes for a
      value of that type. No pointer, slice or map is nil. *)
  Fixpoint encodes_over (J : json → Prop) (t : wtype) (v : json) : Prop :=
    match t with
    | Scalar _ => J v
    | Ptr t => encodes_over J t v
    | Slice t => ∃ vs, v = JArr vs ∧ Forall (encodes_over J t) vs
    | Arr n t => ∃ vs, v = JArr vs ∧ length vs = n ∧ Forall (encodes_over J t) vs
    | Map k t => ∃ kvs, v = JObj kvs ∧ Forall (λ kv, key_text k kv.1 ∧ encodes_over J t kv.2) kvs
    end.
  Lemma admits_ref (component : string → json → Prop) N v : component ("#/components/schemas/" +:+ component_name N) v → admits has_format chars component (component_ref N) v.
  Proof. by intros. Qed.
  Lemma dshape_sound (component : string → json → Prop) (J : json → Prop) N s t : (∀ v, J v → admits has_format chars component s v) → (∀ v, J v → component ("#/components/schemas/" +:+ component_name N) v) →
    ∀ v, encodes_over J t v → admits has_format chars component (dshape N s t) v.
  Proof.
    intros Hs Hc.
    assert (∀ t, (∀ v, encodes_over J t v → admits has_format chars component (dshape N s t) v) → ∀ v, encodes_over J t v →
      admits has_format chars component (if leafy t && negb (primitive_shaped s) then component_ref N else dshape N s t) v) as Hi.
    { intros u IH v Hv. destruct (leafy u && negb (primitive_shaped s)) eqn:E; [|by apply IH]. apply admits_ref, Hc. apply andb_prop in E as [E _].
      destruct u as [b|[b|u|u|m u|k u]|u|m u|k u]; done. }
    induction t as [b|t IH|t IH|m t IH|k t IH]; intros v Hv; cbn [encodes_over dshape] in *.
    - by apply Hs.
    - by apply IH.
    - destruct Hv as (vs & -> & Hv). cbn [admits]. repeat split; try done. eapply Forall_impl; [exact Hv|]. by apply Hi.
    - destruct Hv as (vs & -> & Hl & Hv). cbn [admits]. repeat split; [lia|lia|]. eapply Forall_impl; [exact Hv|]. by apply Hi.
    - destruct Hv as (kvs & -> & Hv). destruct (decide (k = "string")).
      + cbn [admits]. split; [done|]. eapply Forall_impl; [exact Hv|]. intros [k' v'] [_ H']. by apply Hi.
      + by split.
  Qed.
End spec.

(** A type over a declared type whose values its schema accepts: the schema of the whole accepts what is
    written, if the component of the declared type accepts its values. [over] has no pointer to a pointer. *)
Theorem C59_declared_sound_partial has_format chars key_text (component : string → json → Prop) (J : json → Prop) e p n s t : declared p n → over (p +:+ "." +:+ n) t → silent e t →
  e_named e (p +:+ "." +:+ n) = Some s → w_ref s = "" →
  (∀ v, J v → admits has_format chars component s v) → (∀ v, J v → component ("#/components/schemas/" +:+ component_name (p +:+ "." +:+ n)) v) →
  ∃ sc, type_schema e (text t) = Some sc ∧ ∀ v, encodes_over key_text J t v → admits has_format chars component sc v.
Proof. intros H1 H2 H3 H4 H5 H6 H7. exists (dshape (p +:+ "." +:+ n) s t). split; [by apply type_schema_dshape|]. by apply dshape_sound. Qed.

(** Elements and values of a declared type are a reference to its component, pointer or not, if its schema
    is an object; any other schema is repeated in place. *)
Theorem C59_reference e p n s star item : declared p n → e_named e (p +:+ "." +:+ n) = Some s → w_ref s = "" → w_additional s = None → w_type s ≠ "" →
  item = (if decide (w_type s = "object") then WS ("#/components/schemas/" +:+ component_name (p +:+ "." +:+ n)) "" "" 0 0 0 None None else s) →
  let t := if star : bool then Ptr (Scalar (p +:+ "." +:+ n)) else Scalar (p +:+ "." +:+ n) in
  (silent e (Slice t) → type_schema e ("[]" +:+ text t) = Some (WS "" "array" "" 0 0 0 (Some item) None)) ∧
  (silent e (Map "string" t) → type_schema e ("map[string]" +:+ text t) = Some (WS "" "object" "" 0 0 0 None (Some item))) ∧
  (∀ m, (Z.of_nat m ≤ 9223372036854775807)%Z → silent e (Arr m t) → type_schema e ("[" +:+ itoa_nat m +:+ "]" +:+ text t) = Some (WS "" "array" "" 0 (Z.of_nat m) (Z.of_nat m) (Some item) None)) ∧
  (silent e t → type_schema e (text t) = Some s).
Proof.
  intros H1 H2 H3 H4 H5 Hitem t.
  assert (over (p +:+ "." +:+ n) t) as Ht by (unfold t; destruct star; by repeat split).
  assert ((if leafy t && negb (primitive_shaped s) then component_ref (p +:+ "." +:+ n) else dshape (p +:+ "." +:+ n) s t) = item) as Hi.
  { assert (leafy t = true) as -> by (unfold t; by destruct star). assert (dshape (p +:+ "." +:+ n) s t = s) as -> by (unfold t; by destruct star). cbn [andb].
    unfold primitive_shaped. rewrite (bool_decide_eq_true_2 _ H3), (bool_decide_eq_true_2 _ H4), (bool_decide_eq_false_2 _ H5). cbn [andb negb]. subst item.
    destruct (decide (w_type s = "object")) as [E|E]; [by rewrite bool_decide_eq_true_2|by rewrite bool_decide_eq_false_2]. }
  split; [|split; [|split]].
  - intros Hs. rewrite <- Hi. by apply (type_schema_dshape p n H1 s H3 e (Slice t)).
  - intros Hs. rewrite <- Hi. apply (type_schema_dshape p n H1 s H3 e (Map "string" t)); [|done|done]. split; [by left|done].
  - intros m Hm Hs. rewrite <- Hi. by apply (type_schema_dshape p n H1 s H3 e (Arr m t)).
  - intros Hs. rewrite (type_schema_dshape p n H1 s H3 e t) by done. f_equal. unfold t. by destruct star.
Qed.

(** The environment of a project that declares one type. *)
Definition one_type (N : string) (s : wschema) : env := Env (λ _, None) (λ _, None) (λ _, "") (λ x, if decide (x = N) then Some s else None) (λ _, None).
Example C59_declared_case : declared "example.com/shop" "Order" ∧ over "example.com/shop.Order" (Map "string" (Slice (Ptr (Scalar "example.com/shop.Order")))) ∧
  silent (one_type "example.com/shop.Order" (leaf "object" "")) (Map "string" (Slice (Ptr (Scalar "example.com/shop.Order")))) ∧
  e_named (one_type "example.com/shop.Order" (leaf "object" "")) "example.com/shop.Order" = Some (leaf "object" "") ∧
  type_schema (one_type "example.com/shop.Order" (leaf "object" "")) "map[string][]*example.com/shop.Order" =
    Some (WS "" "object" "" 0 0 0 None (Some (WS "" "array" "" 0 0 0 (Some (WS "#/components/schemas/example_com_shop_Order" "" "" 0 0 0 None None)) None))).
Proof.
  split; [by repeat split|]. split; [split; [by left|done]|]. split; [by intros x _|]. split; [done|]. by vm_compute.
Qed.

(** A pointer to a pointer: the reference is to the component of [*T], which no other use makes. *)
Theorem C59_pointer_pointer_refuted : ∃ e p n s, declared p n ∧ e_named e (p +:+ "." +:+ n) = Some s ∧ s = leaf "object" "" ∧
  ∃ r, type_schema e ("[]**" +:+ p +:+ "." +:+ n) = Some (WS "" "array" "" 0 0 0 (Some (WS r "" "" 0 0 0 None None)) None) ∧
  r ≠ "#/components/schemas/" +:+ component_name (p +:+ "." +:+ n).
Proof.
  exists (one_type "shop.Order" (leaf "object" "")), "shop", "Order", (leaf "object" ""). split; [by repeat split|]. split; [done|]. split; [done|].
  eexists. split; [by vm_compute|]. by vm_compute.
Qed.

(** An untyped constant has the schema of the type it takes by default (Go specification, Constants). *)
Theorem C59_untyped e u d : (u, d) ∈ [("untyped bool", "bool"); ("untyped int", "int"); ("untyped rune", "rune"); ("untyped float", "float64"); ("untyped string", "string")] →
  silent e (Scalar d) → ∃ s, type_schema e u = Some s ∧ type_schema e d = Some s ∧ w_type s ≠ "".
Proof.
  intros Hin Hs.
  assert (d ∈ scalars ∧ untyped_default u = Some d) as [Hd Hu].
  { revert Hin. clear. rewrite !elem_of_cons, elem_of_nil. intros [H|[H|[H|[H|[H|[]]]]]]; injection H as -> ->; (split; [by apply (bool_decide_unpack _)|done]). }
  pose proof (type_schema_shape e (Scalar d) Hd Hs) as E. exists (shape (Scalar d)). split; [|split; [done|]].
  - rewrite <- E. unfold type_schema. cbn [map_type]. rewrite Hu. cbn [text default]. change (id d) with d.
    rewrite (text_not_untyped (Scalar d) Hd : untyped_default d = None). cbn [default]. change (id d) with d.
    rewrite !(text_container (Scalar d) Hd : unqualify_container d = d).
    rewrite !(parse_text (Scalar d) Hd : parse_type d = _), !(map_parts_scalar d Hd). cbn [to_ref]. by destruct (decide (d = "time.Time")).
  - destruct (scalar_shape d Hd) as (ty & f & Ek & Ht). cbn [shape]. rewrite Ek. change (w_type (default (leaf "" "") (Some (leaf ty f)))) with ty. intros ->. revert Ht. by apply (bool_decide_unpack (_ ∉ _)).
Qed.
Example C59_untyped_case : silent (one_type "shop.Order" (leaf "object" "")) (Scalar "float64") ∧
  type_schema (one_type "shop.Order" (leaf "object" "")) "untyped float" = Some (leaf "number" "").
Proof. split; [by intros x _|]. by vm_compute. Qed.

(** shouldPromoteToComponent: a name made up for a nested or anonymous struct, or the text of one, never
    becomes a component, whatever its schema; a declared name does unless its schema is a plain one. *)
Theorem C59_synthetic_inline a b s : promote (a +:+ "_nested") s = false ∧ promote (a +:+ "_apispec_anonstruct_" +:+ b) s = false ∧ promote (a +:+ "struct{" +:+ b) s = false.
Proof.
  unfold promote, can_ref, anon_struct. split; [|split]; (destruct s as [s|]; [|done]).
  - assert (has_suffix "_nested" (a +:+ "_nested") = true) as ->; [apply has_suffix_spec; by exists a|]. cbn [negb]. by rewrite ?andb_false_r.
  - assert (str_contains "_apispec_anonstruct_" (a +:+ "_apispec_anonstruct_" +:+ b) = true) as ->; [apply StrSub.str_contains_spec; by exists a, b|]. cbn [negb]. by rewrite ?andb_false_r.
  - assert (str_contains "struct{" (a +:+ "struct{" +:+ b) = true) as ->; [apply StrSub.str_contains_spec; by exists a, b|]. cbn [negb]. by rewrite ?andb_false_r.
Qed.
Theorem C59_promoted p n s : declared p n → promote (p +:+ "." +:+ n) (Some s) = true ↔ w_ref s = "" ∧ (w_additional s = None → w_type s = "" ∨ w_type s = "object").
Proof.
  intros H. unfold promote. destruct (N_can_ref p n H) as [-> _]. rewrite andb_true_r. unfold primitive_shaped.
  destruct (decide (w_ref s = "")) as [E|E]; [|rewrite (bool_decide_eq_false_2 _ E); cbn [andb]; split; [done|by intros []]].
  rewrite (bool_decide_eq_true_2 _ E). cbn [andb].
  destruct (decide (w_additional s = None)) as [E1|E1]; [|rewrite (bool_decide_eq_false_2 _ E1); cbn [andb]; split; [|done]; by intros _].
  rewrite (bool_decide_eq_true_2 _ E1). cbn [andb]. rewrite negb_andb, !negb_involutive, orb_true_iff, !bool_decide_eq_true. split; [by intros H1|]. intros [_ H1]. by apply H1.
Qed.
Example C59_promoted_case : declared "shop" "Order" ∧ promote "shop.Order" (Some (leaf "object" "")) = true ∧ promote "shop.Order" (Some (leaf "string" "")) = false ∧
  promote "shop.Order_Item_nested" (Some (leaf "object" "")) = false.
Proof. split; [by repeat split|]. by vm_compute. Qed.

Print Assumptions C59_synthetic_inline.
Print Assumptions C59_promoted.
Print Assumptions C59_declared_sound_partial.
Print Assumptions C59_reference.
Print Assumptions C59_pointer_pointer_refuted.
Print Assumptions C59_untyped.
