(** * C110: fields of named types. *)
From Coq Require Import Ascii.
From stdpp Require Import sorting.
From stdpp Require Import base list strings gmap.
From Verif Require Import StrLib StrSplit StrSub StrOrder PathModel VerbProofs ScanModel ScanProps TypeModel TypeSpec TypeProofs TypeProps GenModel GenProps TvoProps AliasModel.

(** ** Specification *)
(** Two type expressions, each with what is known of its file's imports, that mean one type: an import may have another name, parentheses may be put. *)
Inductive same_type (i j : string → option qualified_by) : texpr → texpr → Prop :=
| st_ident n : same_type i j (XIdent n) (XIdent n)
| st_star x y : same_type i j x y → same_type i j (XStar x) (XStar y)
| st_import a b n p : i a = Some (ByImport p) → j b = Some (ByImport p) → same_type i j (XSelector a n) (XSelector b n)
| st_index x y l k : same_type i j x y → Forall2 (same_type i j) l k → same_type i j (XIndex x l) (XIndex y k)
| st_array o x y : same_type i j x y → same_type i j (XArray o x) (XArray o y)
| st_map x y v w : same_type i j x y → same_type i j v w → same_type i j (XMap x v) (XMap y w)
| st_chan d x y : same_type i j x y → same_type i j (XChan d x) (XChan d y)
| st_interface : same_type i j XInterface XInterface
| st_struct : same_type i j XStruct XStruct
| st_func : same_type i j XFunc XFunc
| st_paren_l x y : same_type i j x y → same_type i j (XParen x) y
| st_paren_r x y : same_type i j x y → same_type i j x (XParen y).
(** The declaration a name stands for: that of its package; or else the first one of the name, in the order of the packages' names. *)
Inductive meant_by (ds : decls) (pkg name : string) (d : decl) : Prop :=
| mb_own m : pkg ≠ "" → name ≠ "" → ds !! pkg = Some m → m !! name = Some d → meant_by ds pkg name d
| mb_first p m : (pkg = "" ∨ name = "" ∨ ∀ m, ds !! pkg = Some m → m !! name = None) → ds !! p = Some m → m !! name = Some d →
    (∀ q m', ds !! q = Some m' → is_Some (m' !! name) → string_le p q) → meant_by ds pkg name d.
(** What is left of a type after two slices and a pointer, and how the outermost of it is written. *)
Definition unslice (t : tref) : tref := match t with TSlice e => e | _ => t end.
Definition unpointer (t : tref) : tref := match t with TPtr e => e | _ => t end.
Definition outermost (t : tref) : string := match t with TSlice _ => "[]" | TPtr _ => "*" | _ => "" end.

(** ** Names of imports *)
Section texpr_ind.
  Context (P : texpr → Prop).
  Context (H1 : ∀ n, P (XIdent n)) (H2 : ∀ x, P x → P (XStar x)) (H3 : ∀ a n, P (XSelector a n)) (H4 : ∀ x l, P x → Forall P l → P (XIndex x l)) (H5 : ∀ o x, P x → P (XArray o x)).
  Context (H6 : ∀ k v, P k → P v → P (XMap k v)) (H7 : ∀ d x, P x → P (XChan d x)) (H8 : P XInterface) (H9 : P XStruct) (H10 : P XFunc) (H11 : ∀ x, P x → P (XParen x)) (H12 : ∀ x, P x → P (XEllipsis x)) (H13 : ∀ s, P (XOther s)).
  Fixpoint texpr_ind' (e : texpr) : P e :=
    match e with
    | XIdent n => H1 n | XStar x => H2 x (texpr_ind' x) | XSelector a n => H3 a n
    | XIndex x l => H4 x l (texpr_ind' x) ((fix go l : Forall P l := match l with [] => Forall_nil_2 _ | a :: l => Forall_cons_2 _ _ _ (texpr_ind' a) (go l) end) l)
    | XArray o x => H5 o x (texpr_ind' x) | XMap k v => H6 k v (texpr_ind' k) (texpr_ind' v) | XChan d x => H7 d x (texpr_ind' x)
    | XInterface => H8 | XStruct => H9 | XFunc => H10 | XParen x => H11 x (texpr_ind' x) | XEllipsis x => H12 x (texpr_ind' x) | XOther s => H13 s
    end.
End texpr_ind.
Lemma paren_free i j x : ∀ y, same_type i j x (XParen y) → same_type i j x y.
Proof. induction x; intros z H; inversion H; subst; try done; by apply st_paren_l; auto. Qed.
(** C110a: how a type is recorded does not depend on the local names of imports, nor on parentheses. *)
Theorem C110_imports i j x y : same_type i j x y → recorded i x = recorded j y.
Proof.
  intros H. unfold recorded. f_equal. revert y H. induction x using texpr_ind'; intros y Hs.
  all: induction y using texpr_ind'; inversion Hs; subst; cbn [from_expr]; try done; try (by auto); try (f_equal; by auto).
  all: try match goal with A : ∀ y, same_type _ _ ?x y → _, B : same_type _ _ ?x _ |- from_expr _ ?x = _ => by apply (A _ B) end.
  - unfold from_selector. by repeat match goal with A : _ = Some (ByImport _) |- _ => rewrite A; clear A end.
  - match goal with A : ∀ y, same_type _ _ ?x y → _, B : same_type _ _ ?x _ |- _ => rewrite (A _ B) end. f_equal.
    match goal with A : Forall2 _ l ?k, B : Forall _ l |- _ => clear -A B; revert B; induction A as [|a b l k E F IH]; intros G; [done|]; apply Forall_cons in G as [G1 G2]; cbn; f_equal; auto end.
  - match goal with A : ∀ y, same_type _ _ ?x y → _, B : same_type _ _ ?x _ |- _ => by rewrite (A _ B) end.
Qed.
(** C110b: the text recorded for a type tells the type. *)
Theorem C110_recorded i j x y : wf (from_expr i x) → wf (from_expr j y) → recorded i x = recorded j y ↔ from_expr i x = from_expr j y.
Proof. intros Hx Hy. unfold recorded. split; [by apply C11_dotted_injective|by intros ->]. Qed.

(** ** The declaration a name stands for *)
Lemma in_package_spec ds p n d : in_package ds p n = Some d ↔ ∃ m, ds !! p = Some m ∧ m !! n = Some d.
Proof. unfold in_package. destruct (ds !! p) as [m|] eqn:E; cbn; [|split; [done|intros (m & ? & _); congruence]]. split; [by exists m|]. intros (m' & E' & H). congruence. Qed.
Lemma in_package_none ds p n : in_package ds p n = None ↔ ∀ m, ds !! p = Some m → m !! n = None.
Proof. unfold in_package. destruct (ds !! p) as [m|] eqn:E; cbn; [|done]. split; [intros H m' E'; congruence|auto]. Qed.
Lemma anywhere_spec ds n d : head (omap (λ p, in_package ds p n) (ssort (elements (dom ds)))) = Some d ↔
  ∃ p m, ds !! p = Some m ∧ m !! n = Some d ∧ ∀ q m', ds !! q = Some m' → is_Some (m' !! n) → string_le p q.
Proof.
  rewrite head_omap. pose proof (ssort_sorted (elements (dom ds))) as Hs. split.
  - intros (pre & p & post & E & Hp & Hf). apply in_package_spec in Hp as (m & Em & Hm). exists p, m. split_and!; [done|done|]. intros q m' Eq Hq.
    assert (q ∈ pre ++ p :: post) as Hin. { rewrite <- E, elem_of_ssort. apply elem_of_elements, elem_of_dom. by exists m'. }
    rewrite E in Hs. apply elem_of_app in Hin as [Hin|Hin].
    + rewrite Forall_forall in Hf. specialize (Hf q Hin). rewrite in_package_none in Hf. rewrite (Hf m' Eq) in Hq. by destruct Hq.
    + apply StronglySorted_app_inv_r in Hs. apply elem_of_cons in Hin as [->|Hin]; [reflexivity|]. inversion Hs as [|? ? _ Ha]; subst. rewrite Forall_forall in Ha. by apply Ha.
  - intros (p & m & Em & Hm & Hle). assert (p ∈ ssort (elements (dom ds))) as Hin. { rewrite elem_of_ssort. apply elem_of_elements, elem_of_dom. by exists m. }
    pose proof (proj2 (NoDup_ssort _) (NoDup_elements (dom ds))) as Hnd. apply elem_of_list_split in Hin as (pre & post & E). exists pre, p, post. split; [done|]. split; [apply in_package_spec; by exists m|].
    apply Forall_forall. intros q Hq. apply in_package_none. intros m' Eq. destruct (m' !! n) as [d'|] eqn:Hd; [|done]. exfalso.
    rewrite E in Hs, Hnd. assert (string_le p q) as L by (eapply Hle; [done|by rewrite Hd]). assert (string_le q p) as G.
    { apply elem_of_list_split in Hq as (a & b & ->). rewrite <- app_assoc in Hs. apply StronglySorted_app_inv_r in Hs. cbn in Hs. inversion Hs as [|? ? _ Ha]; subst. rewrite Forall_forall in Ha. apply Ha. apply elem_of_app. right. by left. }
    assert (p = q) as -> by (by apply (anti_symm string_le)). apply NoDup_app in Hnd as (_ & Hd' & _). apply (Hd' q Hq). by left.
Qed.
(** C110c: the declaration found. *)
Theorem C110_declaration ds pkg name d : decl_by_name ds pkg name = Some d ↔ meant_by ds pkg name d.
Proof.
  unfold decl_by_name. cbn zeta. split.
  - destruct (decide (pkg ≠ "" ∧ name ≠ "")) as [[Hp Hn]|N].
    + destruct (in_package ds pkg name) as [d'|] eqn:E.
      * intros H. injection H as ->. apply in_package_spec in E as (m & Em & Hm). by eapply mb_own.
      * intros (p & m & Em & Hm & Hle)%anywhere_spec. eapply mb_first; [|done..]. right. right. by apply in_package_none.
    + intros (p & m & Em & Hm & Hle)%anywhere_spec. eapply mb_first; [|done..]. destruct (decide (pkg = "")); [by left|]. destruct (decide (name = "")); [right; by left|]. by exfalso; apply N.
  - intros [m Hp Hn Em Hm|p m Hc Em Hm Hle].
    + rewrite decide_True by done. assert (in_package ds pkg name = Some d) as -> by (apply in_package_spec; by exists m). done.
    + assert (head (omap (λ p, in_package ds p name) (ssort (elements (dom ds)))) = Some d) as -> by (apply anywhere_spec; by exists p, m).
      destruct (decide (pkg ≠ "" ∧ name ≠ "")) as [[H1 H2]|N]; [|done]. destruct Hc as [?|[?|Hc]]; [done..|]. apply in_package_none in Hc. by rewrite Hc.
Qed.
Print Assumptions C110_imports. Print Assumptions C110_recorded. Print Assumptions C110_declaration.
