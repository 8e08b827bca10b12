(** * C111: the type of a selected field. *)
From Coq Require Import Ascii Lia.
From stdpp Require Import base numbers list strings gmap.
From Verif Require Import StrLib StrSplit StrSub StrOrder PairModel PairProofs TypeModel TvoProps SelModel AliasModel.

(** ** Specification *)
(** A text that names type [n] of package [p], or a pointer to it. *)
Definition names_type (e p n : string) : Prop := contains_byte "." n = false ∧ (e = p +:+ "." +:+ n ∧ has_prefix "*" p = false ∨ e = "*" +:+ p +:+ "." +:+ n).
(** A declared type, and the type of the first of its own fields of a name. *)
Definition declared_as (ts : stypes) (pkg name : string) (t : stype) : Prop := pkg ≠ "" ∧ name ≠ "" ∧ ∃ m, ts !! pkg = Some m ∧ m !! name = Some t.
Definition has_field (t : stype) (f ty : string) : Prop := ∃ pre post, sy_fields t = pre ++ (f, ty) :: post ∧ ∀ ty', (f, ty') ∉ pre.
Definition lacks_field (t : stype) (f : string) : Prop := ∀ ty, (f, ty) ∉ sy_fields t.
(** A field a type has, itself or by what it embeds. *)
Inductive promotes (ts : stypes) (f : string) : string → string → string → Prop :=
| pm_own pkg n t ty : declared_as ts pkg n t → has_field t f ty → promotes ts f pkg n ty
| pm_embed pkg n t e p m ty : declared_as ts pkg n t → lacks_field t f → e ∈ sy_embeds t → names_type e p m → promotes ts f p m ty → promotes ts f pkg n ty.

(** ** Lemmas *)
Lemma sel_type_spec ts pkg n t : sel_type ts pkg n = Some t ↔ declared_as ts pkg n t.
Proof.
  unfold sel_type, declared_as. destruct (decide (pkg = "" ∨ n = "")) as [D|D].
  - split; [done|]. intros (? & ? & _). by destruct D.
  - destruct (ts !! pkg) as [m|] eqn:E; cbn; split.
    + intros H. split_and!; [intros ->; apply D; by left|intros ->; apply D; by right|by exists m].
    + intros (_ & _ & m' & Em & H). congruence.
    + done.
    + intros (_ & _ & m' & ? & _). congruence.
Qed.
Lemma own_field_some t f ty : own_field t f = Some ty ↔ has_field t f ty.
Proof.
  unfold own_field, has_field. rewrite head_omap. split.
  - intros (pre & [g ty'] & post & E & H & Hf). cbn in H. destruct (decide (g = f)) as [->|]; [|done]. injection H as ->. exists pre, post. split; [done|]. intros ty' Hin. rewrite Forall_forall in Hf. specialize (Hf _ Hin). cbn in Hf. by rewrite decide_True in Hf.
  - intros (pre & post & E & H). exists pre, (f, ty), post. split; [done|]. cbn. rewrite decide_True by done. split; [done|]. apply Forall_forall. intros [g ty'] Hin. cbn. rewrite decide_False; [done|]. intros ->. by apply (H ty').
Qed.
Lemma own_field_none t f : own_field t f = None ↔ lacks_field t f.
Proof.
  unfold own_field, lacks_field. rewrite head_omap_none, Forall_forall. split.
  - intros H ty Hin. specialize (H _ Hin). cbn in H. by rewrite decide_True in H.
  - intros H [g ty] Hin. cbn. rewrite decide_False; [done|]. intros ->. by apply (H ty).
Qed.
Lemma split_names e p n : contains_byte "." e = true → split_pkg_type (strip_pointer e) = (p, n) ↔ names_type e p n.
Proof.
  intros Hc. unfold split_pkg_type, names_type. split.
  - destruct (split_last "." (strip_pointer e)) as [[p' n']|] eqn:E.
    + intros H. injection H as -> ->.
      assert (∀ s a b, split_last "." s = Some (a, b) → s = a +:+ "." +:+ b ∧ contains_byte "." b = false) as K.
      { clear. induction s as [|c s IH]; intros a b; [done|]. cbn [split_last]. destruct (split_last "." s) as [[x y]|] eqn:E.
        - intros H. injection H as <- <-. destruct (IH x y eq_refl) as [-> ?]. done.
        - destruct (decide (c = "."%char)) as [->|]; [|done]. intros H. injection H as <- <-. split; [done|]. destruct (contains_byte "." s) eqn:B; [|done].
          apply contains_byte_spec in B as (u & v & ->). exfalso. clear -E. revert E. induction u as [|d u IH]; cbn [split_last]; [change ("" +:+ String "." v) with (String "." v); cbn [split_last]; destruct (split_last "." v) as [[]|]; done|].
          rewrite sapp_cons. cbn [split_last]. destruct (split_last "." (u +:+ String "." v)) as [[]|]; [done|]. by intros _; apply IH. }
      apply K in E as [E Hn]. split; [done|]. unfold strip_pointer, trim_prefix in E. destruct (has_prefix "*" e) eqn:P.
      * right. apply has_prefix_spec in P as [z ->]. change (str_drop (String.length "*") ("*" +:+ z)) with (str_drop 0 z) in E. by rewrite <- E.
      * left. split; [done|]. subst e. destruct p as [|c p]; [done|]. rewrite sapp_cons in P. cbn [has_prefix] in *. done.
    + intros _. exfalso. destruct (contains_byte "." (strip_pointer e)) eqn:B.
      * apply contains_byte_spec in B as (u & v & B). rewrite B in E. clear -E. revert E. induction u as [|d u IH]; [change ("" +:+ String "." v) with (String "." v); cbn [split_last]; destruct (split_last "." v) as [[]|]; done|].
        rewrite sapp_cons. cbn [split_last]. destruct (split_last "." (u +:+ String "." v)) as [[]|]; [done|]. intros _. by apply IH.
      * unfold strip_pointer, trim_prefix in B. destruct (has_prefix "*" e) eqn:P; [|congruence]. apply has_prefix_spec in P as [z ->]. change (contains_byte "." z = false) in B. change (contains_byte "." z = true) in Hc. congruence.
  - intros [Hn [[-> P]| ->]].
    + unfold strip_pointer, trim_prefix. assert (has_prefix "*" (p +:+ "." +:+ n) = false) as ->. { destruct p as [|c p]; [done|]. rewrite sapp_cons. cbn [has_prefix] in *. done. } change ("." +:+ n) with (String "." n). by rewrite (split_last_app "." p n).
    + change (strip_pointer ("*" +:+ p +:+ "." +:+ n)) with (p +:+ String "." n). by rewrite (split_last_app "." p n).
Qed.
Lemma split_bare e : contains_byte "." e = false → (split_pkg_type (strip_pointer e)).1 = "".
Proof.
  intros H. unfold split_pkg_type. rewrite split_last_none; [done|]. unfold strip_pointer, trim_prefix. destruct (has_prefix "*" e) eqn:P; [|done]. apply has_prefix_spec in P as [z ->]. exact H.
Qed.
Lemma names_dot e p n : names_type e p n → contains_byte "." e = true.
Proof. intros [_ [[-> _]| ->]]; apply contains_byte_spec; [by exists p, n|by exists ("*" +:+ p), n]. Qed.

(** ** Theorems *)
(** C111a: a type found is that of a field the type has, itself or by what it embeds. *)
Theorem C111_found ts f d : ∀ pkg n r, lookup_field ts f d pkg n = Some r → r ≠ "" → promotes ts f pkg n r.
Proof.
  induction d as [|d IH]; intros pkg n r; [done|]. cbn [lookup_field]. destruct (sel_type ts pkg n) as [t|] eqn:T; [|intros H; by injection H as <-]. apply sel_type_spec in T.
  destruct (own_field t f) as [ty|] eqn:O; [intros H _; injection H as ->; eapply pm_own; [done|by apply own_field_some]|]. apply own_field_none in O.
  intros H Hr. assert (∀ l, first_embedded (lookup_field ts f d) l = Some r → ∃ e p m, e ∈ l ∧ names_type e p m ∧ promotes ts f p m r) as K.
  { induction l as [|e l IHl]; cbn [first_embedded]; [intros E; by injection E as <-|]. destruct (split_pkg_type (strip_pointer e)) as [p m] eqn:E.
    assert (first_embedded (lookup_field ts f d) l = Some r → ∃ e' p m, e' ∈ e :: l ∧ names_type e' p m ∧ promotes ts f p m r) as IHl' by (intros (e' & p' & m' & ? & ? & ?)%IHl; exists e', p', m'; split_and!; [by right|done|done]).
    destruct (decide (m = "")); [done|]. destruct (lookup_field ts f d p m) as [x|] eqn:L; [|done]. destruct (decide (x = "")) as [->|Nx]; [done|]. intros X. injection X as ->. exists e, p, m. split; [by left|]. apply IH in L as Pm; [|done]. split; [|done].
    destruct (contains_byte "." e) eqn:B; [by apply split_names|]. exfalso. apply split_bare in B. rewrite E in B. cbn in B. subst p. destruct d; [done|]. cbn [lookup_field] in L. unfold sel_type in L. rewrite decide_True in L by auto. by injection L as <-. }
  destruct (K _ H) as (e & p & m & ? & ? & ?). by eapply pm_embed.
Qed.
(** C111b: none is found only if the type has no such field. *)
Theorem C111_absent ts f d : (∀ pkg n t g ty, declared_as ts pkg n t → (g, ty) ∈ sy_fields t → ty ≠ "") →
  ∀ pkg n ty, lookup_field ts f d pkg n = Some "" → ¬ promotes ts f pkg n ty.
Proof.
  intros Hne. induction d as [|d IH]; intros pkg n ty; [done|]. cbn [lookup_field]. intros H P. inversion P as [? ? t ? D F|? ? t e p m ? D La Hin Na Pm]; subst.
  - apply sel_type_spec in D as E. rewrite E in H. apply own_field_some in F as O. rewrite O in H. injection H as ->. destruct F as (pre & post & E' & _). eapply (Hne pkg n t f ""); [done| |done]. rewrite E'. apply elem_of_app. right. by left.
  - apply sel_type_spec in D as E. rewrite E in H. apply own_field_none in La as O. rewrite O in H. revert Hin H. generalize (sy_embeds t). induction l as [|e' l IHl]; [by intros ?%elem_of_nil|]. cbn [first_embedded].
    destruct (split_pkg_type (strip_pointer e')) as [p' m'] eqn:S'. intros [<-|Hin]%elem_of_cons.
    + apply names_dot in Na as B. apply (split_names _ _ _ B) in Na. rewrite Na in S'. injection S' as <- <-.
      destruct (decide (m = "")) as [->|]; [inversion Pm as [? ? ? ? (_ & ? & _)|? ? ? ? ? ? ? (_ & ? & _)]; done|].
      destruct (lookup_field ts f d p m) as [x|] eqn:L; [|done]. destruct (decide (x = "")) as [->|]; [|intros X; by injection X]. intros _. by eapply IH.
    + destruct (decide (m' = "")); [by apply IHl|]. destruct (lookup_field ts f d p' m') as [x|]; [|done]. destruct (decide (x = "")) as [->|]; [by apply IHl|intros X; by injection X].
Qed.
(** C111c: the lookup ends if packages are embedded as they are imported, without a cycle; a bound on the depth does not matter otherwise. *)
Theorem C111_ends ts f (rank : string → nat) : (∀ pkg n t e p m, declared_as ts pkg n t → e ∈ sy_embeds t → names_type e p m → is_Some (ts !! p) → rank p < rank pkg) →
  ∀ d pkg n, rank pkg + 2 ≤ d → is_Some (lookup_field ts f d pkg n).
Proof.
  intros Hr. induction d as [|d IH]; intros pkg n Hd; [lia|]. cbn [lookup_field]. destruct (sel_type ts pkg n) as [t|] eqn:T; [|by eexists]. apply sel_type_spec in T. destruct (own_field t f); [by eexists|].
  assert (∀ l, (∀ e, e ∈ l → e ∈ sy_embeds t) → is_Some (first_embedded (lookup_field ts f d) l)) as K; [|by apply K].
  induction l as [|e l IHl]; intros Hl; cbn [first_embedded]; [by eexists|]. assert (is_Some (first_embedded (lookup_field ts f d) l)) as R by (apply IHl; intros; apply Hl; by right).
  destruct (split_pkg_type (strip_pointer e)) as [p m] eqn:E. destruct (decide (m = "")); [done|].
  assert (is_Some (lookup_field ts f d p m)) as [x Hx]; [|rewrite Hx; destruct (decide (x = "")); [done|by eexists]].
  destruct d as [|d]; [lia|]. destruct (ts !! p) as [mp|] eqn:Ep.
  - destruct (decide (p = "")) as [->|Np]; [cbn [lookup_field]; unfold sel_type; rewrite decide_True by auto; by eexists|]. apply IH.
    assert (contains_byte "." e = true) as B. { destruct (contains_byte "." e) eqn:B; [done|]. apply split_bare in B. by rewrite E in B. }
    apply (split_names _ _ _ B) in E. assert (rank p < rank pkg); [|lia]. eapply (Hr pkg n t e p m); [done|apply Hl; by left|done|by eexists].
  - cbn [lookup_field]. unfold sel_type. destruct (decide _); [by eexists|]. rewrite Ep. by eexists.
Qed.
Theorem C111_bound ts f d d' pkg n r : d ≤ d' → lookup_field ts f d pkg n = Some r → lookup_field ts f d' pkg n = Some r.
Proof.
  revert d' pkg n r. induction d as [|d IH]; intros [|d'] pkg n r Hd; try done; [lia|]. cbn [lookup_field]. destruct (sel_type ts pkg n) as [t|]; [|done]. destruct (own_field t f); [done|].
  generalize (sy_embeds t). induction l as [|e l IHl]; cbn [first_embedded]; [done|]. destruct (split_pkg_type (strip_pointer e)) as [p m]. destruct (decide (m = "")); [done|].
  destruct (lookup_field ts f d p m) as [x|] eqn:L; [|done]. rewrite (IH d' p m x) by (done || lia). destruct (decide (x = "")); done.
Qed.
(** C111d: the type of a selector is the one recorded for it; without one, that of the field in the type of what it selects from. *)
Theorem C111_selector look r t x f b p n : base_type look x = b → names_type b p n → n ≠ "" → f ≠ "" →
  selector_type look (ESelect r t (Some x) (Some f)) = if decide (r = "") then if decide (t = "") then look p n f else t else r.
Proof.
  intros Hb Hn Nn Nf. unfold selector_type. cbn [base_type]. assert (or_plain r t = if decide (r = "") then t else r) as E by done. destruct (decide (r = "")) as [Er|Nr].
  - destruct (decide (t = "")) as [Et|Nt]; [|rewrite decide_False by congruence; done]. rewrite (decide_True (P := or_plain r t = "")) by congruence. rewrite Hb. cbn zeta. apply names_dot in Hn as B.
    rewrite decide_False by (by intros ->). apply (split_names _ _ _ B) in Hn. rewrite Hn. by rewrite decide_False by (intros [?|?]; done).
  - by rewrite decide_False by congruence.
Qed.
(** C111e: a constant has the type it is declared with in the first file that has the name, or else the one resolved; a variable has none. *)
Theorem C111_constant files name ty : ty ≠ "" → const_type files name = ty ↔
  ∃ pre m post v, files = pre ++ m :: post ∧ m !! name = Some v ∧ (∀ m', m' ∈ pre → m' !! name = None) ∧ sv_const v = true ∧ (sv_type v = ty ∨ sv_type v = "" ∧ sv_resolved v = ty).
Proof.
  intros Hty. unfold const_type. split.
  - destruct (head (omap (.!! name) files)) as [v|] eqn:E; [|by intros <-]. apply head_omap in E as (pre & m & post & Ef & Hm & Hp). destruct (sv_const v) eqn:C; [|by intros <-]. intros H. exists pre, m, post, v. split_and!; try done.
    + by apply Forall_forall.
    + unfold or_plain in H. destruct (decide (sv_type v = "")); [by right|by left].
  - intros (pre & m & post & v & Ef & Hm & Hp & C & H). assert (head (omap (.!! name) files) = Some v) as -> by (apply head_omap; exists pre, m, post; split_and!; try done; by apply Forall_forall).
    rewrite C. unfold or_plain. destruct H as [<-|[-> <-]]; [by rewrite decide_False|by rewrite decide_True].
Qed.
Print Assumptions C111_found. Print Assumptions C111_absent. Print Assumptions C111_ends. Print Assumptions C111_bound. Print Assumptions C111_selector. Print Assumptions C111_constant.

(** ** Cases *)
Definition no_types (s : string) : option qualified_by := if decide (s = "db") then Some (ByImport "ex/db") else if decide (s = "m") then Some (ByImport "ex/m") else None.
Definition embed_db : string := recorded no_types (XStar (XSelector "db" "Base")).
Definition ts1 : stypes := {["ex/app" := {["User" := SType [("Name", "string"); ("Home", "Address")] [embed_db]; "Address" := SType [("City", "string")] []]}; "ex/db" := {["Base" := SType [("ID", "ex/uid.ID")] []]}]}.
Example C111_case : embed_db = "*ex/db.Base" ∧ lookup_field ts1 "ID" 5 "ex/app" "User" = Some "ex/uid.ID" ∧ lookup_field ts1 "Name" 5 "ex/app" "User" = Some "string" ∧ lookup_field ts1 "Age" 5 "ex/app" "User" = Some "".
Proof. by vm_compute. Qed.
Definition look1 (p n f : string) : string := default "" (lookup_field ts1 f 5 p n).
Example C111_selector_case : selector_type look1 (ESelect "" "" (Some (EIdent "" "*ex/app.User")) (Some "ID")) = "ex/uid.ID" ∧ names_type "*ex/app.User" "ex/app" "User".
Proof. split; [by vm_compute|]. split; [done|]. by right. Qed.
Example C111_ends_case pkg n t e p m : declared_as ts1 pkg n t → e ∈ sy_embeds t → names_type e p m → is_Some (ts1 !! p) → (if decide (p = "ex/db") then 0 else 1) < (if decide (pkg = "ex/db") then 0 else 1).
Proof.
  intros (_ & _ & mp & Hm & Ht) He Hn _. unfold ts1 in Hm. apply lookup_insert_Some in Hm as [[<- <-]|[_ Hm]].
  - apply lookup_insert_Some in Ht as [[<- <-]|[_ Ht]].
    + cbn in He. apply elem_of_list_singleton in He as ->. apply names_dot in Hn as B. apply (split_names _ _ _ B) in Hn. vm_compute in Hn. injection Hn as <- <-. vm_compute. lia.
    + apply lookup_singleton_Some in Ht as [<- <-]. by apply elem_of_nil in He.
  - apply lookup_singleton_Some in Hm as [<- <-]. apply lookup_singleton_Some in Ht as [<- <-]. by apply elem_of_nil in He.
Qed.
(** C111f: fields promoted from a type of the same package are not found. *)
Theorem C111_same_package_refuted : ∃ ts e, e = recorded no_types (XIdent "Base") ∧ declared_as ts "ex/app" "User" (SType [] [e]) ∧ declared_as ts "ex/app" "Base" (SType [("ID", "string")] []) ∧ ∀ d, 1 < d → lookup_field ts "ID" d "ex/app" "User" = Some "".
Proof.
  set (ts := {["ex/app" := {["User" := SType [] ["Base"]; "Base" := SType [("ID", "string")] []]}]} : stypes).
  exists ts, "Base". split; [by vm_compute|]. split; [by apply sel_type_spec; vm_compute|]. split; [by apply sel_type_spec; vm_compute|]. intros d Hd. apply (C111_bound _ _ 2); [lia|by vm_compute].
Qed.
(** C111g: a field deep in the first embedded type is taken before one directly in the second, which is the one Go selects. *)
Theorem C111_depth_refuted : ∃ ts, declared_as ts "ex/app" "User" (SType [] ["ex/a.A"; "ex/b.B"]) ∧ declared_as ts "ex/a" "A" (SType [] ["ex/c.C"]) ∧ declared_as ts "ex/b" "B" (SType [("ID", "string")] []) ∧ lookup_field ts "ID" 5 "ex/app" "User" = Some "int".
Proof.
  exists {["ex/app" := {["User" := SType [] ["ex/a.A"; "ex/b.B"]]}; "ex/a" := {["A" := SType [] ["ex/c.C"]]}; "ex/b" := {["B" := SType [("ID", "string")] []]}; "ex/c" := {["C" := SType [("ID", "int")] []]}]}.
  do 3 (split; [by apply sel_type_spec; vm_compute|]). by vm_compute.
Qed.
(** C111h: a field of a field is not found where the first field's type is of the same package, nor a field of a generic type's instance. *)
Theorem C111_nested_refuted : ∃ x, x = ESelect "" "" (Some (ESelect "" "" (Some (EIdent "" "ex/app.User")) (Some "Home"))) (Some "City") ∧ look1 "ex/app" "User" "Home" = "Address" ∧ look1 "ex/app" "Address" "City" = "string" ∧ selector_type look1 x = "".
Proof. eexists. split; [done|]. by vm_compute. Qed.
Theorem C111_generic_refuted : ∃ look x, look "ex/app" "Page" "Total" = "int" ∧ x = ESelect "" "" (Some (EIdent "" "ex/app.Page[ex/m.User]")) (Some "Total") ∧ selector_type look x = "".
Proof. exists (λ p n f, if decide (p = "ex/app" ∧ n = "Page" ∧ f = "Total") then "int" else ""). eexists. split; [by vm_compute|]. split; [done|]. by vm_compute. Qed.
Print Assumptions C111_same_package_refuted. Print Assumptions C111_depth_refuted. Print Assumptions C111_nested_refuted. Print Assumptions C111_generic_refuted.
