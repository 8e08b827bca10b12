(** * C87: which structs implement which interfaces, and the methods of a handler value. *)
From Coq Require Import Ascii.
From stdpp Require Import sorting.
From stdpp Require Import base list strings gmap.
From Verif Require Import StrLib StrSub StrOrder StrSplit PairModel PairProofs ImplModel ImplProofs.

(** A struct has every method of an interface with methods, by name and by signature without packages. *)
Definition satisfies (t i : itype) : Prop :=
  it_kind t = "struct" ∧ it_kind i = "interface" ∧ it_methods i ≠ [] ∧
  ∀ m, m ∈ it_methods i → ∃ m', m' ∈ it_methods t ∧ im_name m' = im_name m ∧ normalize (im_sig m') = normalize (im_sig m).
(** Before the analysis: nothing is recorded, names have no dot, no type has two methods of one name. *)
Definition fresh (pr : iproject) : Prop := ∀ x t, get_type pr x = Some t →
  it_implements t = [] ∧ it_implemented_by t = [] ∧ x.1 ≠ "" ∧ x.2 ≠ "" ∧ contains_byte "." x.2 = false ∧ NoDup (im_name <$> it_methods t).

Lemma table_spec ms n sig : NoDup (im_name <$> ms) → method_table ms !! n = Some sig ↔ IMethod n sig ∈ ms.
Proof.
  induction ms as [|[k v] ms IH] using rev_ind; intros Hn; [unfold method_table; cbn; rewrite lookup_empty; split; [done|]; by intros ?%elem_of_nil|].
  rewrite fmap_app in Hn. apply NoDup_app in Hn as (Hn & Hd & _). unfold method_table. rewrite foldl_app. fold (method_table ms). cbn [foldl im_name im_sig].
  rewrite elem_of_app, elem_of_list_singleton. destruct (decide (k = n)) as [->|H].
  - rewrite lookup_insert. split; [intros [= ->]; by right|]. intros [H|[= ->]]; [|done]. destruct (Hd n); [|by left]. apply elem_of_list_fmap. by exists (IMethod n sig).
  - rewrite lookup_insert_ne by done. rewrite IH by done. split; [by left|]. intros [?|[= <- _]]; done.
Qed.
Lemma implements_spec t i : NoDup (im_name <$> it_methods t) → implements_interface (method_table (it_methods t)) i = true ↔
  it_methods i ≠ [] ∧ ∀ m, m ∈ it_methods i → ∃ m', m' ∈ it_methods t ∧ im_name m' = im_name m ∧ normalize (im_sig m') = normalize (im_sig m).
Proof.
  intros Hn. unfold implements_interface. destruct (it_methods i) as [|m0 ms]; [split; [done|by intros [? _]]|]. rewrite forallb_forall. split.
  - intros H. split; [done|]. intros m Hm. apply elem_of_list_In, H in Hm. destruct (method_table (it_methods t) !! im_name m) as [sig|] eqn:E; [|done].
    apply bool_decide_eq_true in Hm. apply table_spec in E; [|done]. by exists (IMethod (im_name m) sig).
  - intros [_ H] m Hm. destruct (H m) as ([k v] & H1 & H2 & H3); [by apply elem_of_list_In|]. cbn in H2, H3. subst k. apply table_spec in H1; [|done]. rewrite H1. by apply bool_decide_eq_true.
Qed.
Lemma link_spec pr s i : fresh pr → link pr s i = true ↔ ∃ t u, get_type pr s = Some t ∧ get_type pr i = Some u ∧ satisfies t u.
Proof.
  intros Hf. unfold link. destruct (get_type pr s) as [t|] eqn:Es; [|split; [done|by intros (? & ? & ? & _)]].
  destruct (get_type pr i) as [u|] eqn:Eu; [|split; [done|by intros (? & ? & _ & ? & _)]].
  destruct (Hf s t Es) as (_ & _ & _ & _ & _ & Hn). rewrite !andb_true_iff, !bool_decide_eq_true, implements_spec by done. split.
  - intros (H1 & H2 & H3 & H4). exists t, u. by repeat split.
  - intros (t' & u' & [= <-] & [= <-] & H1 & H2 & H3 & H4). by repeat split.
Qed.
Lemma StronglySorted_filter {A} (R : A → A → Prop) (f : A → bool) l : StronglySorted R l → StronglySorted R (filter (λ x, Is_true (f x)) l).
Proof.
  induction 1 as [|a l Hs IH Hf]; [constructor|]. rewrite filter_cons. destruct (decide (Is_true (f a))); [|done]. constructor; [done|].
  apply Forall_forall. intros x Hx. apply elem_of_list_filter in Hx as [_ Hx]. rewrite Forall_forall in Hf. by apply Hf.
Qed.

(** Each type lists the keys of exactly the interfaces it satisfies, each interface the keys of exactly the
    structs that satisfy it, once and in the order of package and name, whatever the order of the maps. *)
Theorem C87_exact pr x t : fresh pr → get_type pr x = Some t → ∃ up down,
  get_type (analyze pr) x = Some (IType (it_kind t) (it_methods t) (type_key <$> up) (type_key <$> down)) ∧
  (∀ i, i ∈ up ↔ ∃ u, get_type pr i = Some u ∧ satisfies t u) ∧ StronglySorted pair_le up ∧ NoDup up ∧
  (∀ s, s ∈ down ↔ ∃ u, get_type pr s = Some u ∧ satisfies u t) ∧ StronglySorted pair_le down ∧ NoDup down.
Proof.
  intros Hf Hx. destruct (all_types_sorted pr) as [Hs Hn]. destruct (Hf x t Hx) as (E1 & E2 & _).
  exists (filter (λ i, Is_true (link pr x i)) (all_types pr)), (filter (λ s, Is_true (link pr s x)) (all_types pr)).
  rewrite (analyze_closed pr x t Hx), E1, E2. split; [done|]. split; [|split; [|split; [|split; [|split]]]].
  - intros i. rewrite elem_of_list_filter, Is_true_true, link_spec, all_types_elem by done. rewrite Hx. split.
    + intros [(t' & u & [= <-] & H1 & H2) _]. eauto.
    + intros (u & H1 & H2). split; [by exists t, u|]. eauto.
  - by apply StronglySorted_filter.
  - by apply NoDup_filter.
  - intros s. rewrite elem_of_list_filter, Is_true_true, link_spec, all_types_elem by done. rewrite Hx. split.
    + intros [(u & t' & H1 & [= <-] & H2) _]. eauto.
    + intros (u & H1 & H2). split; [by exists u, t|]. eauto.
  - by apply StronglySorted_filter.
  - by apply NoDup_filter.
Qed.
Theorem C87_nothing_new pr x : get_type pr x = None → get_type (analyze pr) x = None.
Proof. apply analyze_none. Qed.

(** ** Type keys *)
Theorem C87_key_split p n : contains_byte "." n = false → split_type_key (type_key (p, n)) = Some (p, n).
Proof. intros H. unfold split_type_key, type_key. cbn [fst snd]. by apply split_last_app. Qed.
(** The key of a handler method splits into method, type and package (attachHandlerValueChildren,
    handler_value.go 196-203). *)
Theorem C87_method_key_split p n m : contains_byte "." n = false → contains_byte "." m = false →
  split_type_key (p +:+ "." +:+ n +:+ "." +:+ m) = Some (type_key (p, n), m) ∧ split_type_key (type_key (p, n)) = Some (p, n).
Proof.
  intros H1 H2. split; [|by apply C87_key_split]. unfold split_type_key, type_key. cbn [fst snd].
  replace (p +:+ "." +:+ n +:+ "." +:+ m) with ((p +:+ "." +:+ n) +:+ String "." m); [by apply split_last_app|]. by rewrite !sapp_assoc.
Qed.
Lemma type_key_inj x y : contains_byte "." x.2 = false → contains_byte "." y.2 = false → type_key x = type_key y → x = y.
Proof.
  destruct x as [p n], y as [q m]. cbn [snd]. intros H1 H2 E. apply (f_equal split_type_key) in E. rewrite !C87_key_split in E by done. by injection E as -> ->.
Qed.

(** ** Interfaces declared elsewhere *)
Lemma external_elem (keys : list string) : ∀ (l : list string) (k : string), k ∈ foldl (λ l k, if decide (k ∈ l) then l else l ++ [k]) l keys ↔ k ∈ l ∨ k ∈ keys.
Proof.
  induction keys as [|k0 keys IH]; intros l k; cbn [foldl]; [split; [by left|]; intros [?|?%elem_of_nil]; done|]. rewrite IH, elem_of_cons.
  destruct (decide (k0 ∈ l)) as [H|H].
  - split; [intros [?|?]; auto|]. intros [?|[->|?]]; auto.
  - rewrite elem_of_app, elem_of_list_singleton. split; [intros [[?| ->]|?]; auto|]. intros [?|[->|?]]; auto.
Qed.
Lemma get_external ext l : NoDup l → ∀ pr x, get_type (foldl (λ pr x, alter_type (add_external (ext x)) x pr) pr l) x = if decide (x ∈ l) then add_external (ext x) <$> get_type pr x else get_type pr x.
Proof.
  induction l as [|y l IH]; intros Hn pr x; cbn [foldl]; [rewrite decide_False; [done|apply not_elem_of_nil]|]. apply NoDup_cons in Hn as [Hy Hn]. rewrite IH by done. rewrite get_alter.
  destruct (decide (y = x)) as [->|H].
  - rewrite decide_False by done. rewrite decide_True; [done|by left].
  - destruct (decide (x ∈ l)); [rewrite decide_True; [done|by right]|]. rewrite decide_False; [done|]. rewrite elem_of_cons. by intros [->|?].
Qed.
Lemma analyze_external_get ext pr x : get_type (analyze_external ext pr) x = add_external (ext x) <$> get_type pr x.
Proof.
  unfold analyze_external. rewrite get_external by apply all_types_sorted. destruct (decide (x ∈ all_types pr)) as [H|H]; [done|].
  destruct (get_type pr x) eqn:E; [|done]. destruct H. apply all_types_elem. eauto.
Qed.
Lemma add_external_none t : add_external [] t = t.
Proof. by destruct t. Qed.

(** ** Handler values *)
Section handlers.
  Context (pr : iproject) (ext : string * string → list string).
  (** The metadata after both passes; only concrete types implement outside interfaces. *)
  Notation recorded := (analyze_external ext (analyze pr)).
  Context (Hf : fresh pr) (Hext : ∀ x t, get_type pr x = Some t → it_kind t = "interface" → ext x = []).
  Lemma recorded_get x t : get_type pr x = Some t → ∃ t', get_type recorded x = Some t' ∧ it_kind t' = it_kind t ∧ it_methods t' = it_methods t ∧
    (∀ k, k ∈ it_implements t' ↔ (∃ i u, k = type_key i ∧ get_type pr i = Some u ∧ satisfies t u) ∨ k ∈ ext x) ∧
    ∃ l, it_implemented_by t' = type_key <$> l ∧ ∀ s, s ∈ l ↔ ∃ u, get_type pr s = Some u ∧ satisfies u t.
  Proof.
    intros Hx. destruct (C87_exact pr x t Hf Hx) as (up & down & E & Hup & _ & _ & Hdown & _). rewrite analyze_external_get, E. cbn [fmap option_fmap option_map].
    eexists. split; [done|]. split; [done|]. split; [done|]. split; [|by exists down]. intros k. cbn [add_external it_implements]. rewrite external_elem, elem_of_list_fmap. split.
    - intros [(i & -> & Hi)|H]; [|by right]. left. apply Hup in Hi as (u & H1 & H2). eauto.
    - intros [(i & u & -> & H1 & H2)|H]; [|by right]. left. exists i. split; [done|]. apply Hup. eauto.
  Qed.
  Lemma recorded_none x : get_type pr x = None → get_type recorded x = None.
  Proof. intros H. rewrite analyze_external_get. by rewrite (analyze_none pr x H). Qed.
  Definition concrete (methods : list string) (x : string * string) : list string :=
    match get_type pr x with
    | Some t => omap (λ m, if decide (m ∈ im_name <$> it_methods t) then Some (x.1 +:+ "." +:+ x.2 +:+ "." +:+ m) else None) methods
    | None => []
    end.
  Lemma keys_concrete methods n x t : methods ≠ [] → get_type pr x = Some t → it_kind t ≠ "interface" → handler_keys (S n) recorded methods x.1 x.2 = Some (concrete methods x).
  Proof.
    intros Hm Hx Hk. destruct (recorded_get x t Hx) as (t' & E & Ek & Em & _). destruct (Hf x t Hx) as (_ & _ & N1 & N2 & _). cbn [handler_keys].
    rewrite decide_False by (by intros [?|[?|?]]). replace (x.1, x.2) with x by (by destruct x). rewrite E, Ek. rewrite decide_False by done. unfold concrete. by rewrite Hx, Em.
  Qed.
  Lemma fan_concrete methods n l : methods ≠ [] → (∀ x, x ∈ l → ∃ t, get_type pr x = Some t ∧ it_kind t ≠ "interface") →
    mapM (λ impl, match split_type_key impl with Some (p, t) => handler_keys (S n) recorded methods p t | None => Some [] end) (type_key <$> l) = Some (concrete methods <$> l).
  Proof.
    intros Hm. induction l as [|x l IH]; intros Hl; [done|]. destruct (Hl x) as (t & Hx & Hk); [by left|]. cbn [fmap list_fmap mapM].
    destruct (Hf x t Hx) as (_ & _ & _ & _ & Hdot & _). replace (type_key x) with (type_key (x.1, x.2)) by (by destruct x). rewrite C87_key_split by done.
    rewrite (keys_concrete methods n x t Hm Hx Hk). cbn [mbind option_bind]. change (list_fmap _ _ type_key l) with (type_key <$> l). rewrite IH; [done|]. intros y Hy. apply Hl. by right.
  Qed.
  Lemma concrete_elem methods x t k : get_type pr x = Some t → k ∈ concrete methods x ↔ ∃ m, m ∈ methods ∧ m ∈ im_name <$> it_methods t ∧ k = x.1 +:+ "." +:+ x.2 +:+ "." +:+ m.
  Proof.
    intros Hx. unfold concrete. rewrite Hx, elem_of_list_omap. split.
    - intros (m & Hm & H). destruct (decide _) as [Hd|]; [|done]. injection H as <-. eauto.
    - intros (m & Hm & Hd & ->). exists m. split; [done|]. by rewrite decide_True.
  Qed.
  Lemma implementers_elem key : key ≠ "" → ∃ l, implementers_of recorded key = type_key <$> l ∧ ∀ x, x ∈ l ↔ ∃ t, get_type recorded x = Some t ∧ key ∈ it_implements t.
  Proof.
    intros Hk. unfold implementers_of. rewrite decide_False by done.
    exists (filter (λ x, Is_true (match get_type recorded x with Some t => bool_decide (key ∈ it_implements t) | None => false end)) (all_types recorded)). split.
    - induction (all_types recorded) as [|x l IH]; [done|]. cbn [omap list_omap]. rewrite filter_cons. destruct (get_type recorded x) as [t|].
      + destruct (decide (key ∈ it_implements t)) as [H|H].
        * rewrite (bool_decide_eq_true_2 _ H). rewrite decide_True by done. cbn [fmap list_fmap]. by f_equal.
        * rewrite (bool_decide_eq_false_2 _ H). rewrite decide_False by (by intros []). done.
      + rewrite decide_False by (by intros []). done.
    - intros x. rewrite elem_of_list_filter, all_types_elem. destruct (get_type recorded x) as [t|].
      + rewrite bool_decide_spec. split; [intros [H _]; eauto|]. intros (t' & [= <-] & H). eauto.
      + split; [by intros [[] _]|]. by intros (? & ? & _).
  Qed.

  (** The handler methods of a value: those its type declares; for an interface, those of each struct that
      satisfies it; for an interface declared elsewhere, those of each type that implements it. Two levels
      of recursion are enough. *)
  Theorem C87_handler_keys methods pkg name : contains_byte "." name = false → ∃ keys, (∀ n, 2 ≤ n → handler_keys n recorded methods pkg name = Some keys) ∧
    ∀ k, k ∈ keys ↔ ∃ p t m u, k = p +:+ "." +:+ t +:+ "." +:+ m ∧ m ∈ methods ∧ get_type pr (p, t) = Some u ∧ it_kind u ≠ "interface" ∧ m ∈ im_name <$> it_methods u ∧
      ((p, t) = (pkg, name) ∨ (∃ i, get_type pr (pkg, name) = Some i ∧ satisfies u i) ∨ (get_type pr (pkg, name) = None ∧ pkg ≠ "" ∧ name ≠ "" ∧ pkg +:+ "." +:+ name ∈ ext (p, t))).
  Proof.
    intros Hdot. destruct (decide (methods = [])) as [->|Hm].
    { exists []. split; [intros [|n] Hn; [lia|]; cbn [handler_keys]; rewrite decide_True; [done|by left]|]. intros k. split; [by intros ?%elem_of_nil|]. by intros (? & ? & m & ? & _ & ?%elem_of_nil & _). }
    destruct (decide (pkg = "" ∨ name = "")) as [He|He].
    { exists []. split; [intros [|n] Hn; [lia|]; cbn [handler_keys]; rewrite decide_True; [done|by right]|]. intros k. split; [by intros ?%elem_of_nil|].
      intros (p & t & m & u & _ & _ & Hu & _ & _ & [[= -> ->]|[(i & Hi & _)|(_ & ? & ? & _)]]).
      - destruct (Hf _ _ Hu) as (_ & _ & ? & ? & _). cbn in *. by destruct He.
      - destruct (Hf _ _ Hi) as (_ & _ & ? & ? & _). cbn in *. by destruct He.
      - by destruct He. }
    assert (pkg ≠ "" ∧ name ≠ "") as [Hp Hn0] by (split; intros ->; apply He; auto).
    assert (∀ l, (∀ x, x ∈ l → ∃ t, get_type pr x = Some t ∧ it_kind t ≠ "interface") → ∀ k, k ∈ mjoin (concrete methods <$> l) ↔
      ∃ p t m u, k = p +:+ "." +:+ t +:+ "." +:+ m ∧ m ∈ methods ∧ get_type pr (p, t) = Some u ∧ it_kind u ≠ "interface" ∧ m ∈ im_name <$> it_methods u ∧ (p, t) ∈ l) as Hjoin.
    { intros l Hl k. rewrite elem_of_list_join. split.
      - intros (ks & Hk & Hks). apply elem_of_list_fmap in Hks as ([p t] & -> & Hx). destruct (Hl _ Hx) as (u & Hu & Hku). apply (concrete_elem methods _ u k Hu) in Hk as (m & H1 & H2 & ->).
        exists p, t, m, u. done.
      - intros (p & t & m & u & -> & H1 & Hu & H2 & H3 & Hx). exists (concrete methods (p, t)). split; [|by apply elem_of_list_fmap_1]. apply (concrete_elem methods _ u _ Hu). by exists m. }
    destruct (get_type pr (pkg, name)) as [t|] eqn:Et.
    - destruct (decide (it_kind t = "interface")) as [Hk|Hk].
      + destruct (recorded_get _ _ Et) as (t' & E & Ek & Em & _ & l & El & Hl).
        assert (∀ x, x ∈ l → ∃ t, get_type pr x = Some t ∧ it_kind t ≠ "interface") as Hl'.
        { intros x Hx. apply Hl in Hx as (u & Hu & Hs). exists u. split; [done|]. destruct Hs as [-> _]. done. }
        exists (mjoin (concrete methods <$> l)). split.
        * intros [|[|n]] Hn; [lia|lia|]. remember (S n) as n1. cbn [handler_keys]. subst n1. rewrite decide_False by (by intros [?|[?|?]]). rewrite E, Ek. rewrite decide_True by done. rewrite El.
          by rewrite fan_concrete.
        * intros k. rewrite Hjoin by done. split.
          -- intros (p & q & m & u & H1 & H2 & H3 & H4 & H5 & H6). exists p, q, m, u. repeat (split; [done|]). right. left. exists t. split; [done|]. apply Hl in H6 as (u' & H6 & H7). rewrite H3 in H6. by injection H6 as <-.
          -- intros (p & q & m & u & H1 & H2 & H3 & H4 & H5 & [[= -> ->]|[(i & [= <-] & H6)|(? & _)]]); [rewrite Et in H3; by injection H3 as ->| |done].
             exists p, q, m, u. repeat (split; [done|]). apply Hl. eauto.
      + exists (concrete methods (pkg, name)). split; [intros [|n] Hn; [lia|]; by apply (keys_concrete methods n (pkg, name) t)|].
        intros k. rewrite (concrete_elem methods (pkg, name) t k Et). split.
        * intros (m & H1 & H2 & ->). exists pkg, name, m, t. repeat (split; [done|]). by left.
        * intros (p & q & m & u & -> & H2 & H3 & H4 & H5 & [[= -> ->]|[(i & [= <-] & H6)|(? & _)]]); [|by destruct H6 as (_ & ? & _)|done].
          rewrite Et in H3. injection H3 as ->. by exists m.
    - assert (pkg +:+ "." +:+ name ≠ "") as Hkey. { destruct pkg as [|c pkg']; [done|]. by rewrite sapp_cons. }
      destruct (implementers_elem _ Hkey) as (l & El & Hl).
      assert (∀ x, x ∈ l ↔ ∃ t, get_type pr x = Some t ∧ pkg +:+ "." +:+ name ∈ ext x) as Hl2.
      { intros x. rewrite Hl. split.
        - intros (t' & H1 & H2). destruct (get_type pr x) as [t|] eqn:Ex; [|pose proof (recorded_none _ Ex); congruence]. exists t. split; [done|].
          destruct (recorded_get _ _ Ex) as (t2 & E2 & _ & _ & Hi & _). rewrite H1 in E2. injection E2 as <-. destruct (proj1 (Hi _) H2) as [(i & u & Hik & Hu & _)|Hin]; [|done].
          change (pkg +:+ "." +:+ name) with (type_key (pkg, name)) in Hik. apply type_key_inj in Hik; [|done|by apply (Hf i u Hu)]. subst i. by rewrite Et in Hu.
        - intros (t & Ex & He2). destruct (recorded_get _ _ Ex) as (t2 & E2 & _ & _ & Hi & _). exists t2. split; [done|]. apply Hi. by right. }
      assert (∀ x, x ∈ l → ∃ t, get_type pr x = Some t ∧ it_kind t ≠ "interface") as Hl'.
      { intros x Hx. apply Hl2 in Hx as (t & H1 & H2). exists t. split; [done|]. intros Hk. rewrite (Hext x t H1 Hk) in H2. by apply elem_of_nil in H2. }
      exists (mjoin (concrete methods <$> l)). split.
      + intros [|[|n]] Hn; [lia|lia|]. remember (S n) as n1. cbn [handler_keys]. subst n1. rewrite decide_False by (by intros [?|[?|?]]). rewrite (recorded_none _ Et), El.
        by rewrite fan_concrete.
      + intros k. rewrite Hjoin by done. split.
        * intros (p & q & m & u & H1 & H2 & H3 & H4 & H5 & H6). exists p, q, m, u. repeat (split; [done|]). right. right. apply Hl2 in H6 as (u' & H6 & H7). done.
        * intros (p & q & m & u & H1 & H2 & H3 & H4 & H5 & [[= -> ->]|[(i & ? & _)|(_ & _ & _ & H6)]]); [by rewrite Et in H3|done|].
          exists p, q, m, u. repeat (split; [done|]). apply Hl2. eauto.
  Qed.
End handlers.
