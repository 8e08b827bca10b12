(** * Cached lookups answer like a fresh scan while the metadata only grows (C35). *)
From stdpp Require Import sorting.
From stdpp Require Import base list strings gmap relations.
From Verif Require Import StrOrder LookModel.

Arguments meta {_}. Arguments State {_}.
Arguments sorted_files {_}. Arguments sorted_type_names {_}. Arguments type_index {_}. Arguments func_index {_}.
Arguments func_anywhere {_}. Arguments sorted_pkgs {_}. Arguments start {_}. Arguments with_meta {_}.
Arguments sorted_file_names {_}. Arguments sorted_types {_}. Arguments type_in_package {_}. Arguments function_in_package {_}.
Arguments sorted_package_names {_}. Arguments function_anywhere {_}. Arguments anywhere_step {_}. Arguments ask {_}.
Arguments types_of {_}. Arguments funcs_of {_}. Arguments file_names {_}. Arguments shape_of {_}. Arguments fill {_}.

Section spec.
  Context {A : Type}.
  Implicit Types m : metadata A.

  (** ** Specification *)
  (** Growing: nothing is removed or replaced; a nil file may be filled in. *)
  Definition file_grows (o o' : option (file A)) : Prop :=
    match o, o' with
    | None, _ => True
    | Some a, Some b => types a ⊆ types b ∧ funcs a ⊆ funcs b
    | Some _, None => False
    end.
  Definition package_grows (a b : package A) : Prop := ∀ f o, a !! f = Some o → ∃ o', b !! f = Some o' ∧ file_grows o o'.
  Definition grows m m' : Prop := ∀ p a, m !! p = Some a → ∃ b, m' !! p = Some b ∧ package_grows a b.

  (** Reading the metadata directly. *)
  Definition type_at m (p f n : string) (v : A) : Prop := ∃ pk fl, m !! p = Some pk ∧ pk !! f = Some (Some fl) ∧ types fl !! n = Some v.
  Definition func_at m (p f n : string) (v : A) : Prop := ∃ pk fl, m !! p = Some pk ∧ pk !! f = Some (Some fl) ∧ funcs fl !! n = Some v.
  (** The declaration in the least file name of the package. *)
  Definition least_in (at_ : string → string → A → Prop) (n : string) (v : A) : Prop :=
    ∃ f, at_ f n v ∧ ∀ f' v', at_ f' n v' → string_le f f'.
  Definition correct (at_ : string → string → A → Prop) (n : string) (r : option A) : Prop :=
    match r with Some v => least_in at_ n v | None => ∀ f v, ¬ at_ f n v end.
  (** The declaration in the least package, and in the least file of it. *)
  Definition correct_anywhere m (n : string) (r : option A) : Prop :=
    match r with
    | Some v => ∃ p f, func_at m p f n v ∧ ∀ p' f' v', func_at m p' f' n v' → p = p' ∧ string_le f f' ∨ p ≠ p' ∧ string_le p p'
    | None => ∀ p f v, ¬ func_at m p f n v
    end.
  (** The names of a set in order, each once. *)
  Definition sorted_names (l : list string) (P : string → Prop) : Prop := StronglySorted string_le l ∧ NoDup l ∧ ∀ x, x ∈ l ↔ P x.

  (** States reached by growing the metadata and making lookups, in any order. *)
  Inductive reached : state A → Prop :=
  | reached_start m : reached (start m)
  | reached_grow s m : reached s → grows (meta s) m → reached (with_meta m s)
  | reached_ask s q : reached s → reached (ask s q).
  (** The same, the metadata being complete before the first whole-program lookup. *)
  Definition local (q : query) : Prop := match q with QPkgs | QAnywhere _ => False | _ => True end.
  Inductive assembling : state A → Prop :=
  | as_start m : assembling (start m)
  | as_grow s m : assembling s → grows (meta s) m → assembling (with_meta m s)
  | as_ask s q : assembling s → local q → assembling (ask s q).
  Inductive assembled : state A → Prop :=
  | ad_start s : assembling s → assembled s
  | ad_ask s q : assembled s → assembled (ask s q).

  (** ** Growth and counts *)
  Lemma file_grows_refl o : file_grows o o.
  Proof. by destruct o. Qed.
  Lemma file_grows_trans a b c : file_grows a b → file_grows b c → file_grows a c.
  Proof. destruct a, b, c; cbn; try done. intros [??] [??]. split; by etrans. Qed.
  Lemma package_grows_refl a : package_grows a a.
  Proof. intros f o H. exists o. split; [done|apply file_grows_refl]. Qed.
  Lemma package_grows_trans a b c : package_grows a b → package_grows b c → package_grows a c.
  Proof.
    intros H1 H2 f o Hf. destruct (H1 f o Hf) as (o' & Hf' & Hg). destruct (H2 f o' Hf') as (o'' & Hf'' & Hg').
    exists o''. split; [done|]. by eapply file_grows_trans.
  Qed.
  Lemma grows_refl m : grows m m.
  Proof. intros p a H. exists a. split; [done|apply package_grows_refl]. Qed.

  Lemma grows_dom a b : package_grows a b → (dom a : gset string) ⊆ dom b.
  Proof. intros H f [o Hf]%elem_of_dom. destruct (H f o Hf) as (o' & Hb & _). by eapply elem_of_dom_2. Qed.
  Lemma grows_types a b f : package_grows a b → types_of a f ⊆ types_of b f.
  Proof.
    intros H. unfold types_of. destruct (a !! f) as [[fl|]|] eqn:E; [|apply map_empty_subseteq..].
    destruct (H f _ E) as (o' & -> & Hg). destruct o'; [by destruct Hg|done].
  Qed.
  Lemma grows_funcs a b f : package_grows a b → funcs_of a f ⊆ funcs_of b f.
  Proof.
    intros H. unfold funcs_of. destruct (a !! f) as [[fl|]|] eqn:E; [|apply map_empty_subseteq..].
    destruct (H f _ E) as (o' & -> & Hg). destruct o'; [by destruct Hg|done].
  Qed.
  Lemma set_same_size (X Y : gset string) : X ⊆ Y → size Y ≤ size X → X = Y.
  Proof.
    intros H Hz. apply set_eq. intros x. split; [apply H|]. intros Hx. destruct (decide (x ∈ X)) as [|Hn]; [done|exfalso].
    assert (X ⊂ Y) as ?%subset_size; [|lia]. split; [done|]. intros H'. apply Hn, H', Hx.
  Qed.
  Lemma same_names a b : package_grows a b → size a = size b → file_names a = file_names b.
  Proof.
    intros Hg Hs. unfold file_names. f_equal. apply set_same_size; [by apply grows_dom|]. rewrite !size_dom. lia.
  Qed.
  Lemma map_subset_size (x y : gmap string A) : x ⊆ y → size y ≤ size x → x = y.
  Proof.
    intros Hs Hz. apply map_eq. intros i. destruct (x !! i) as [v|] eqn:E.
    - symmetry. by eapply lookup_weaken.
    - symmetry. apply not_elem_of_dom. intros Hi.
      assert (Heq : (dom x : gset string) = dom y).
      { apply set_same_size; [by apply subseteq_dom|]. by rewrite !size_dom. }
      rewrite <-Heq in Hi. by apply not_elem_of_dom in E.
  Qed.
  Lemma sum_le (g h : string → nat) l : (∀ x, g x ≤ h x) → sum_list_with g l ≤ sum_list_with h l.
  Proof. intros H. induction l as [|x l IH]; cbn; [done|]. specialize (H x). lia. Qed.
  Lemma sum_same (g h : string → nat) l : (∀ x, g x ≤ h x) → sum_list_with g l = sum_list_with h l → ∀ x, x ∈ l → g x = h x.
  Proof.
    intros H. induction l as [|y l IH]; cbn; intros He x Hx; [by apply elem_of_nil in Hx|].
    pose proof (sum_le g h l H). pose proof (H y). apply elem_of_cons in Hx as [->|Hx]; [lia|]. apply IH; [lia|done].
  Qed.
  Lemma fill_ext (get get' : string → gmap string A) l : ∀ idx, (∀ f, f ∈ l → get f = get' f) →
    foldl (λ idx f, idx ∪ get f) idx l = foldl (λ idx f, idx ∪ get' f) idx l.
  Proof.
    induction l as [|x l IH]; intros idx H; cbn; [done|]. rewrite (H x) by apply elem_of_list_here.
    apply IH. intros f Hf. apply H. by right.
  Qed.
  Definition fresh_types (pk : package A) : gmap string A := fill types_of pk ∅ (ssort (file_names pk)).
  Definition fresh_funcs (pk : package A) : gmap string A := fill funcs_of pk ∅ (ssort (file_names pk)).
  (** Equal counts and growth: nothing changed. *)
  Lemma same_shape a b : package_grows a b → shape_of a = shape_of b → fresh_types a = fresh_types b ∧ fresh_funcs a = fresh_funcs b.
  Proof.
    intros Hg Hs. unfold shape_of in Hs. injection Hs as Hz Ht Hf.
    pose proof (same_names a b Hg Hz) as Hn. rewrite Hn in Ht, Hf. unfold fresh_types, fresh_funcs, fill. rewrite Hn.
    split; apply fill_ext; intros f Hin; rewrite elem_of_ssort in Hin.
    - apply map_subset_size; [by apply grows_types|].
      enough (size (types_of a f) = size (types_of b f)) by lia.
      refine (sum_same (λ f, size (types_of a f)) (λ f, size (types_of b f)) (file_names b) _ _ f Hin); [|done].
      intros x. rewrite <-!(size_dom (D := gset string)). apply subseteq_size, subseteq_dom. by apply grows_types.
    - apply map_subset_size; [by apply grows_funcs|].
      enough (size (funcs_of a f) = size (funcs_of b f)) by lia.
      refine (sum_same (λ f, size (funcs_of a f)) (λ f, size (funcs_of b f)) (file_names b) _ _ f Hin); [|done].
      intros x. rewrite <-!(size_dom (D := gset string)). apply subseteq_size, subseteq_dom. by apply grows_funcs.
  Qed.
  Lemma same_type_names a b f fla flb : package_grows a b → a !! f = Some (Some fla) → b !! f = Some (Some flb) →
    size (types fla) = size (types flb) → types fla = types flb.
  Proof.
    intros Hg Ha Hb Hz. destruct (Hg f _ Ha) as (o & Hb' & Hf). rewrite Hb in Hb'. injection Hb' as <-.
    destruct Hf as [Ht _]. apply map_subset_size; [done|lia].
  Qed.

  (** ** The invariant of the caches *)
  (** The package, or a smaller earlier version of it. *)
  Definition before m (p : string) (P : package A → Prop) : Prop := ∃ a b, m !! p = Some b ∧ package_grows a b ∧ P a.
  Definition ok_files m (c : gmap string (list string * nat)) : Prop :=
    ∀ p names k, c !! p = Some (names, k) → before m p (λ a, names = ssort (file_names a) ∧ k = size a).
  Definition ok_tnames m (c : gmap (string * string) (list string * nat)) : Prop :=
    ∀ p f names k, c !! (p, f) = Some (names, k) →
      before m p (λ a, ∃ fl, a !! f = Some (Some fl) ∧ names = ssort (elements (dom (types fl) : gset string)) ∧ k = size (types fl)).
  Definition ok_index (fresh : package A → gmap string A) m (c : gmap string (gmap string A * (nat * nat * nat))) : Prop :=
    ∀ p idx k, c !! p = Some (idx, k) → before m p (λ a, idx = fresh a ∧ k = shape_of a).
  Definition ok (s : state A) : Prop :=
    ok_files (meta s) (sorted_files s) ∧ ok_tnames (meta s) (sorted_type_names s) ∧
    ok_index fresh_types (meta s) (type_index s) ∧ ok_index fresh_funcs (meta s) (func_index s).

  Lemma before_grow m m' p P : grows m m' → before m p P → before m' p P.
  Proof.
    intros Hg (a & b & Hb & Hab & HP). destruct (Hg p b Hb) as (c & Hc & Hbc). exists a, c.
    split; [done|]. split; [by eapply package_grows_trans|done].
  Qed.
  Lemma before_now m p b (P : package A → Prop) : m !! p = Some b → P b → before m p P.
  Proof. intros H HP. exists b, b. split; [done|]. split; [apply package_grows_refl|done]. Qed.

  Lemma ok_start m : ok (start m).
  Proof. split_and!; intros ? **; set_solver. Qed.
  Lemma ok_grow s m : ok s → grows (meta s) m → ok (with_meta m s).
  Proof.
    intros (H1 & H2 & H3 & H4) Hg. split_and!; cbn.
    - intros p names k Hc. eapply before_grow; [done|]. by apply H1.
    - intros p f names k Hc. eapply before_grow; [done|]. by apply H2.
    - intros p names k Hc. eapply before_grow; [done|]. by apply H3.
    - intros p names k Hc. eapply before_grow; [done|]. by apply H4.
  Qed.

  (** What a lookup leaves untouched. *)
  Definition keeps_global (s s' : state A) : Prop := meta s' = meta s ∧ func_anywhere s' = func_anywhere s ∧ sorted_pkgs s' = sorted_pkgs s.

  Lemma sorted_file_names_ok s p : ok s →
    ok (sorted_file_names s p).1 ∧ keeps_global s (sorted_file_names s p).1 ∧
    (sorted_file_names s p).2 = match meta s !! p with Some pk => ssort (file_names pk) | None => [] end.
  Proof.
    intros Hok. unfold sorted_file_names. destruct (meta s !! p) as [pk|] eqn:Hp; [|by split_and!].
    set (build := (State (meta s) _ _ _ _ _ _, _)).
    assert (Hbuild : ok build.1 ∧ keeps_global s build.1 ∧ build.2 = ssort (file_names pk)).
    { destruct Hok as (H1 & H2 & H3 & H4); split; [|by split_and!]. unfold ok; split_and!; cbn; try done.
      intros q names k Hc. destruct (decide (p = q)) as [<-|Hne].
      - rewrite lookup_insert in Hc. injection Hc as <- <-. by eapply before_now.
      - rewrite lookup_insert_ne in Hc by done. by apply H1. }
    destruct (sorted_files s !! p) as [[names k]|] eqn:Hc; [|done]. destruct (decide (k = size pk)) as [->|]; [|done].
    split; [done|]. split; [done|]. cbn. destruct Hok as (H1 & _). destruct (H1 p names _ Hc) as (a & b & Hb & Hg & -> & Hz).
    rewrite Hp in Hb. injection Hb as <-. f_equal. by apply same_names.
  Qed.
  Lemma sorted_types_ok s p f : ok s →
    ok (sorted_types s p f).1 ∧ keeps_global s (sorted_types s p f).1 ∧
    (sorted_types s p f).2 = match meta s !! p with Some pk => ssort (elements (dom (types_of pk f) : gset string)) | None => [] end.
  Proof.
    intros Hok. unfold sorted_types. destruct (meta s !! p) as [pk|] eqn:Hp; [|by split_and!].
    unfold types_of. destruct (pk !! f) as [[fl|]|] eqn:Hf; [|by split_and!..].
    set (build := (State (meta s) _ _ _ _ _ _, _)).
    assert (Hbuild : ok build.1 ∧ keeps_global s build.1 ∧ build.2 = ssort (elements (dom (types fl) : gset string))).
    { destruct Hok as (H1 & H2 & H3 & H4); split; [|by split_and!]. unfold ok; split_and!; cbn; try done.
      intros q g names k Hc. destruct (decide ((p, f) = (q, g))) as [[= <- <-]|Hne].
      - rewrite lookup_insert in Hc. injection Hc as <- <-. eapply before_now; [done|]. by exists fl.
      - rewrite lookup_insert_ne in Hc by done. by apply H2. }
    destruct (sorted_type_names s !! (p, f)) as [[names k]|] eqn:Hc; [|done].
    destruct (decide (k = size (types fl))) as [->|]; [|done].
    split; [done|]. split; [done|]. cbn. destruct Hok as (_ & H2 & _).
    destruct (H2 p f names _ Hc) as (a & b & Hb & Hg & fla & Hfa & -> & Hz).
    rewrite Hp in Hb. injection Hb as <-. do 3 f_equal. by eapply (same_type_names a pk f).
  Qed.
  Lemma type_in_package_ok s p n : ok s →
    ok (type_in_package s p n).1 ∧ keeps_global s (type_in_package s p n).1 ∧
    (type_in_package s p n).2 = match meta s !! p with Some pk => fresh_types pk !! n | None => None end.
  Proof.
    intros Hok. unfold type_in_package. destruct (meta s !! p) as [pk|] eqn:Hp; [|by split_and!].
    destruct (sorted_file_names_ok s p Hok) as (Hok' & (Hm & Ha & Hk) & Hn). rewrite Hp in Hn.
    destruct (sorted_file_names s p) as [s' names']. cbn [fst snd] in Hok', Hm, Ha, Hk, Hn. subst names'.
    set (build := (State (meta s') _ _ _ _ _ _, _)).
    assert (Hbuild : ok build.1 ∧ keeps_global s build.1 ∧ build.2 = fresh_types pk !! n).
    { destruct Hok' as (H1 & H2 & H3 & H4); split; [|by split_and!]. unfold ok; split_and!; cbn; try done.
      intros q idx k Hc. destruct (decide (p = q)) as [<-|Hne].
      - rewrite lookup_insert in Hc. injection Hc as <- <-. eapply before_now; [by rewrite Hm|done].
      - rewrite lookup_insert_ne in Hc by done. by apply H3. }
    destruct (type_index s !! p) as [[idx k]|] eqn:Hc; [|done]. destruct (decide (k = shape_of pk)) as [->|]; [|done].
    split; [done|]. split; [done|]. cbn. destruct Hok as (_ & _ & H3 & _).
    destruct (H3 p idx _ Hc) as (a & b & Hb & Hg & -> & Hz).
    rewrite Hp in Hb. injection Hb as <-. f_equal. by apply same_shape.
  Qed.
  Lemma function_in_package_ok s p n : ok s →
    ok (function_in_package s p n).1 ∧ keeps_global s (function_in_package s p n).1 ∧
    (function_in_package s p n).2 = match meta s !! p with Some pk => fresh_funcs pk !! n | None => None end.
  Proof.
    intros Hok. unfold function_in_package. destruct (meta s !! p) as [pk|] eqn:Hp; [|by split_and!].
    destruct (sorted_file_names_ok s p Hok) as (Hok' & (Hm & Ha & Hk) & Hn). rewrite Hp in Hn.
    destruct (sorted_file_names s p) as [s' names']. cbn [fst snd] in Hok', Hm, Ha, Hk, Hn. subst names'.
    set (build := (State (meta s') _ _ _ _ _ _, _)).
    assert (Hbuild : ok build.1 ∧ keeps_global s build.1 ∧ build.2 = fresh_funcs pk !! n).
    { destruct Hok' as (H1 & H2 & H3 & H4); split; [|by split_and!]. unfold ok; split_and!; cbn; try done.
      intros q idx k Hc. destruct (decide (p = q)) as [<-|Hne].
      - rewrite lookup_insert in Hc. injection Hc as <- <-. eapply before_now; [by rewrite Hm|done].
      - rewrite lookup_insert_ne in Hc by done. by apply H4. }
    destruct (func_index s !! p) as [[idx k]|] eqn:Hc; [|done]. destruct (decide (k = shape_of pk)) as [->|]; [|done].
    split; [done|]. split; [done|]. cbn. destruct Hok as (_ & _ & _ & H4).
    destruct (H4 p idx _ Hc) as (a & b & Hb & Hg & -> & Hz).
    rewrite Hp in Hb. injection Hb as <-. f_equal. by apply same_shape.
  Qed.
  Lemma sorted_package_names_ok s : ok s → ok (sorted_package_names s).1 ∧ meta (sorted_package_names s).1 = meta s ∧
    func_anywhere (sorted_package_names s).1 = func_anywhere s ∧ sorted_pkgs (sorted_package_names s).1 = Some (sorted_package_names s).2.
  Proof. intros Hok. unfold sorted_package_names. destruct (sorted_pkgs s) eqn:E; by split_and!. Qed.

  Definition add_package m (idx : gmap string A) (p : string) : gmap string A :=
    match m !! p with Some pk => fill funcs_of pk idx (ssort (file_names pk)) | None => idx end.
  Lemma anywhere_loop l : ∀ s idx, ok s →
    ok (foldl anywhere_step (s, idx) l).1 ∧ keeps_global s (foldl anywhere_step (s, idx) l).1 ∧
    (foldl anywhere_step (s, idx) l).2 = foldl (add_package (meta s)) idx l.
  Proof.
    induction l as [|p l IH]; intros s idx Hok; [by split_and!|].
    change (foldl anywhere_step (s, idx) (p :: l)) with (foldl anywhere_step (anywhere_step (s, idx) p) l).
    change (foldl (add_package (meta s)) idx (p :: l)) with (foldl (add_package (meta s)) (add_package (meta s) idx p) l).
    unfold anywhere_step at 2 4 6. unfold add_package at 2. destruct (meta s !! p) as [pk|] eqn:Hp; [|by apply IH].
    destruct (sorted_file_names_ok s p Hok) as (Hok' & (Hm & Ha & Hk) & Hn). rewrite Hp in Hn.
    destruct (sorted_file_names s p) as [s' names']. cbn [fst snd] in Hok', Hm, Ha, Hk, Hn. subst names'.
    destruct (IH s' (fill funcs_of pk idx (ssort (file_names pk))) Hok') as (G1 & (G2 & G3 & G4) & G5).
    split; [done|]. split; [|by rewrite G5, Hm]. split_and!; congruence.
  Qed.
  Lemma function_anywhere_ok s n : ok s → ok (function_anywhere s n).1 ∧ meta (function_anywhere s n).1 = meta s.
  Proof.
    intros Hok. unfold function_anywhere. destruct (func_anywhere s); [done|].
    destruct (sorted_package_names_ok s Hok) as (Hok1 & Hm1 & _). destruct (sorted_package_names s) as [s1 pkgs]. cbn [fst snd] in *.
    destruct (anywhere_loop pkgs s1 ∅ Hok1) as (Hok2 & (Hm2 & _) & _). destruct (foldl anywhere_step (s1, ∅) pkgs) as [s2 idx]. cbn [fst snd] in *.
    split; [done|]. cbn. congruence.
  Qed.
  Lemma ok_ask s q : ok s → ok (ask s q) ∧ meta (ask s q) = meta s.
  Proof.
    intros Hok. destruct q as [p|p f|p n|p n| |n]; cbn [ask].
    - destruct (sorted_file_names_ok s p Hok) as (? & (? & _) & _). done.
    - destruct (sorted_types_ok s p f Hok) as (? & (? & _) & _). done.
    - destruct (type_in_package_ok s p n Hok) as (? & (? & _) & _). done.
    - destruct (function_in_package_ok s p n Hok) as (? & (? & _) & _). done.
    - destruct (sorted_package_names_ok s Hok) as (? & ? & _). done.
    - apply function_anywhere_ok, Hok.
  Qed.
  Lemma reached_ok s : reached s → ok s.
  Proof. induction 1 as [m|s m _ IH Hg|s q _ IH]; [apply ok_start|by apply ok_grow|by apply ok_ask]. Qed.

  (** ** What the fresh scan finds *)
  Lemma fill_lookup (get : string → gmap string A) l : ∀ (idx : gmap string A) n,
    foldl (λ idx f, idx ∪ get f) idx l !! n = match idx !! n with Some v => Some v | None => foldr (λ f r, match get f !! n with Some v => Some v | None => r end) None l end.
  Proof.
    induction l as [|f l IH]; intros idx n; cbn; [by destruct (idx !! n)|]. rewrite IH, lookup_union.
    destruct (idx !! n) as [v|], (get f !! n) as [w|]; done.
  Qed.
  Definition first_of (get : string → option A) (l : list string) : option A := foldr (λ f r, match get f with Some v => Some v | None => r end) None l.
  Lemma first_of_some get l v : StronglySorted string_le l → first_of get l = Some v →
    ∃ f, f ∈ l ∧ get f = Some v ∧ ∀ f', f' ∈ l → is_Some (get f') → string_le f f'.
  Proof.
    induction 1 as [|f l Hs IH Hf]; cbn; [done|]. destruct (get f) as [w|] eqn:E.
    - intros [= ->]. exists f. split; [apply elem_of_list_here|]. split; [done|]. intros f' Hin _.
      apply elem_of_cons in Hin as [->|Hin]; [reflexivity|]. by eapply (proj1 (Forall_forall _ _)).
    - intros H. destruct (IH H) as (g & Hg & He & Hl). exists g. split; [by right|]. split; [done|].
      intros f' Hin Hs'. apply elem_of_cons in Hin as [->|Hin]; [rewrite E in Hs'; by destruct Hs'|by apply Hl].
  Qed.
  Lemma first_of_none get l : first_of get l = None → ∀ f, f ∈ l → get f = None.
  Proof.
    induction l as [|f l IH]; cbn; intros H g Hg; [by apply elem_of_nil in Hg|]. destruct (get f) eqn:E; [done|].
    apply elem_of_cons in Hg as [->|Hg]; [done|]. by apply IH.
  Qed.
  Lemma elem_file_names (pk : package A) f : f ∈ ssort (file_names pk) ↔ is_Some (pk !! f).
  Proof. unfold file_names. by rewrite elem_of_ssort, elem_of_elements, elem_of_dom. Qed.
  Lemma types_of_spec (pk : package A) f n v : types_of pk f !! n = Some v ↔ ∃ fl, pk !! f = Some (Some fl) ∧ types fl !! n = Some v.
  Proof.
    unfold types_of. destruct (pk !! f) as [[fl|]|]; [|rewrite lookup_empty; split; [done|by intros (? & ? & _)]..].
    split; [intros H; by exists fl|]. by intros (? & [= <-] & H).
  Qed.
  Lemma funcs_of_spec (pk : package A) f n v : funcs_of pk f !! n = Some v ↔ ∃ fl, pk !! f = Some (Some fl) ∧ funcs fl !! n = Some v.
  Proof.
    unfold funcs_of. destruct (pk !! f) as [[fl|]|]; [|rewrite lookup_empty; split; [done|by intros (? & ? & _)]..].
    split; [intros H; by exists fl|]. by intros (? & [= <-] & H).
  Qed.
  Lemma fresh_correct (get : package A → string → gmap string A) (pk : package A) n (at_ : string → string → A → Prop) :
    (∀ f v, at_ f n v ↔ is_Some (pk !! f) ∧ get pk f !! n = Some v) →
    correct at_ n (fill get pk ∅ (ssort (file_names pk)) !! n).
  Proof.
    intros Hat. unfold fill. rewrite fill_lookup, lookup_empty. change (correct at_ n (first_of (λ f, get pk f !! n) (ssort (file_names pk)))).
    destruct (first_of _ _) as [v|] eqn:E; cbn.
    - apply first_of_some in E as (f & Hf & Hv & Hl); [|apply ssort_sorted]. exists f. split; [apply Hat; split; [by apply elem_file_names|done]|].
      intros f' v' H'. apply Hat in H' as [Hd Hv']. apply Hl; [by apply elem_file_names|by eexists].
    - intros f v H. apply Hat in H as [Hd Hv]. pose proof (first_of_none _ _ E f) as Hno. rewrite Hno in Hv; [done|by apply elem_file_names].
  Qed.
  Lemma type_at_of m p pk n : m !! p = Some pk → ∀ f v, type_at m p f n v ↔ is_Some (pk !! f) ∧ types_of pk f !! n = Some v.
  Proof.
    intros Hp f v. rewrite types_of_spec. unfold type_at. split.
    - intros (pk' & fl & Hp' & Hf & Hv). rewrite Hp in Hp'. injection Hp' as <-. split; [by eexists|by exists fl].
    - intros [_ (fl & Hf & Hv)]. by exists pk, fl.
  Qed.
  Lemma func_at_of m p pk n : m !! p = Some pk → ∀ f v, func_at m p f n v ↔ is_Some (pk !! f) ∧ funcs_of pk f !! n = Some v.
  Proof.
    intros Hp f v. rewrite funcs_of_spec. unfold func_at. split.
    - intros (pk' & fl & Hp' & Hf & Hv). rewrite Hp in Hp'. injection Hp' as <-. split; [by eexists|by exists fl].
    - intros [_ (fl & Hf & Hv)]. by exists pk, fl.
  Qed.

  (** ** Theorems: lookups inside a package *)
  Theorem C35_type_lookup s p n : reached s → correct (type_at (meta s) p) n (type_in_package s p n).2.
  Proof.
    intros Hr. destruct (type_in_package_ok s p n (reached_ok s Hr)) as (_ & _ & ->).
    destruct (meta s !! p) as [pk|] eqn:Hp.
    - apply fresh_correct. by apply type_at_of.
    - cbn. intros f v (pk & fl & Hp' & _). by rewrite Hp in Hp'.
  Qed.
  Theorem C35_function_lookup s p n : reached s → correct (func_at (meta s) p) n (function_in_package s p n).2.
  Proof.
    intros Hr. destruct (function_in_package_ok s p n (reached_ok s Hr)) as (_ & _ & ->).
    destruct (meta s !! p) as [pk|] eqn:Hp.
    - apply fresh_correct. by apply func_at_of.
    - cbn. intros f v (pk & fl & Hp' & _). by rewrite Hp in Hp'.
  Qed.
  Theorem C35_file_names s p : reached s → sorted_names (sorted_file_names s p).2 (λ f, ∃ pk, meta s !! p = Some pk ∧ is_Some (pk !! f)).
  Proof.
    intros Hr. destruct (sorted_file_names_ok s p (reached_ok s Hr)) as (_ & _ & ->).
    destruct (meta s !! p) as [pk|] eqn:Hp.
    - split; [apply ssort_sorted|]. split; [apply NoDup_ssort, NoDup_elements|]. intros x. rewrite elem_file_names.
      split; [intros H; by exists pk|]. by intros (? & [= <-] & H).
    - split; [constructor|]. split; [constructor|]. intros x. split; [by intros ?%elem_of_nil|]. by intros (? & ? & _).
  Qed.
  Theorem C35_type_names s p f : reached s → sorted_names (sorted_types s p f).2 (λ n, ∃ v, type_at (meta s) p f n v).
  Proof.
    intros Hr. destruct (sorted_types_ok s p f (reached_ok s Hr)) as (_ & _ & ->).
    destruct (meta s !! p) as [pk|] eqn:Hp.
    - split; [apply ssort_sorted|]. split; [apply NoDup_ssort, NoDup_elements|]. intros x. rewrite elem_of_ssort, elem_of_elements, elem_of_dom.
      split.
      + intros [v Hv]. exists v. apply (type_at_of _ _ pk); [done|]. split; [|done]. apply types_of_spec in Hv as (fl & Hf & _). by eexists.
      + intros [v Hv]. apply (type_at_of _ _ pk) in Hv as [_ Hv]; [|done]. by exists v.
    - split; [constructor|]. split; [constructor|]. intros x. split; [by intros ?%elem_of_nil|]. intros (v & pk & fl & Hp' & _). by rewrite Hp in Hp'.
  Qed.

  (** ** Whole-program lookups *)
  Definition ok_global (s : state A) : Prop :=
    (∀ l, sorted_pkgs s = Some l → l = ssort (elements (dom (meta s) : gset string))) ∧
    (∀ idx, func_anywhere s = Some idx → idx = foldl (add_package (meta s)) ∅ (ssort (elements (dom (meta s) : gset string)))).
  Lemma assembling_ok s : assembling s → ok s ∧ sorted_pkgs s = None ∧ func_anywhere s = None.
  Proof.
    induction 1 as [m|s m _ (H1 & H2 & H3) Hg|s q _ (H1 & H2 & H3) Hl].
    - split; [apply ok_start|done].
    - split; [by apply ok_grow|done].
    - split; [by apply ok_ask|]. destruct q as [p|p f|p n|p n| |n]; try done; cbn [ask].
      + destruct (sorted_file_names_ok s p H1) as (_ & (_ & -> & ->) & _). done.
      + destruct (sorted_types_ok s p f H1) as (_ & (_ & -> & ->) & _). done.
      + destruct (type_in_package_ok s p n H1) as (_ & (_ & -> & ->) & _). done.
      + destruct (function_in_package_ok s p n H1) as (_ & (_ & -> & ->) & _). done.
  Qed.
  Lemma sorted_package_names_global s : ok_global s → ok_global (sorted_package_names s).1 ∧ (sorted_package_names s).2 = ssort (elements (dom (meta s) : gset string)).
  Proof.
    intros Hgl. pose proof Hgl as [H1 H2]. unfold sorted_package_names. destruct (sorted_pkgs s) as [l|] eqn:E.
    - split; [exact Hgl|]. by apply H1.
    - split; [|done]. split; cbn; [|exact H2]. by intros l [= <-].
  Qed.
  Lemma function_anywhere_global s n : ok s → ok_global s → ok_global (function_anywhere s n).1 ∧
    (function_anywhere s n).2 = foldl (add_package (meta s)) ∅ (ssort (elements (dom (meta s) : gset string))) !! n.
  Proof.
    intros Hok Hgl. unfold function_anywhere. destruct (func_anywhere s) as [idx|] eqn:E.
    - split; [done|]. cbn. f_equal. by apply Hgl.
    - destruct (sorted_package_names_global s Hgl) as [Hg1 Hn].
      destruct (sorted_package_names_ok s Hok) as (Hok1 & Hm1 & Ha1 & _). destruct (sorted_package_names s) as [s1 pkgs]. cbn [fst snd] in *. subst pkgs.
      destruct (anywhere_loop (ssort (elements (dom (meta s) : gset string))) s1 ∅ Hok1) as (Hok2 & (Hm2 & Ha2 & Hp2) & Hi).
      destruct (foldl anywhere_step (s1, ∅) _) as [s2 idx]. cbn [fst snd] in *. rewrite Hm1 in Hi, Hm2. subst idx.
      split; [|done]. split; cbn.
      + rewrite Hp2, Hm2. intros l Hl. destruct Hg1 as [G _]. rewrite (G l Hl). by rewrite Hm1.
      + intros idx [= <-]. by rewrite Hm2.
  Qed.
  Lemma assembled_ok s : assembled s → ok s ∧ ok_global s.
  Proof.
    induction 1 as [s Ha|s q _ [H1 H2]].
    - apply assembling_ok in Ha as (H1 & H2 & H3). split; [done|]. split; [by rewrite H2|by rewrite H3].
    - split; [by apply ok_ask|]. destruct (ok_ask s q H1) as [_ Hm].
      destruct q as [p|p f|p n|p n| |n]; cbn [ask] in *.
      + destruct (sorted_file_names_ok s p H1) as (_ & (_ & Ea & Es) & _). unfold ok_global. by rewrite Hm, Ea, Es.
      + destruct (sorted_types_ok s p f H1) as (_ & (_ & Ea & Es) & _). unfold ok_global. by rewrite Hm, Ea, Es.
      + destruct (type_in_package_ok s p n H1) as (_ & (_ & Ea & Es) & _). unfold ok_global. by rewrite Hm, Ea, Es.
      + destruct (function_in_package_ok s p n H1) as (_ & (_ & Ea & Es) & _). unfold ok_global. by rewrite Hm, Ea, Es.
      + by apply sorted_package_names_global.
      + by apply function_anywhere_global.
  Qed.
  Lemma add_package_lookup m idx p n : add_package m idx p !! n =
    match idx !! n with Some v => Some v | None => match m !! p with Some pk => fresh_funcs pk !! n | None => None end end.
  Proof.
    unfold add_package. destruct (m !! p) as [pk|]; [|by destruct (idx !! n)]. unfold fresh_funcs, fill. rewrite !fill_lookup, lookup_empty. done.
  Qed.
  Lemma add_packages_lookup m n l : ∀ idx, foldl (add_package m) idx l !! n =
    match idx !! n with Some v => Some v | None => first_of (λ p, match m !! p with Some pk => fresh_funcs pk !! n | None => None end) l end.
  Proof.
    induction l as [|p l IH]; intros idx; cbn; [by destruct (idx !! n)|]. rewrite IH, add_package_lookup. by destruct (idx !! n).
  Qed.
  Theorem C35_anywhere_partial s n : assembled s → correct_anywhere (meta s) n (function_anywhere s n).2.
  Proof.
    intros Hs. destruct (assembled_ok s Hs) as [Hok Hgl]. destruct (function_anywhere_global s n Hok Hgl) as [_ ->].
    rewrite add_packages_lookup, lookup_empty. set (get := λ p, match meta s !! p with Some pk => fresh_funcs pk !! n | None => None end).
    assert (Hget : ∀ p, correct (func_at (meta s) p) n (get p)).
    { intros p. unfold get. destruct (meta s !! p) as [pk|] eqn:Hp.
      - apply fresh_correct. by apply func_at_of.
      - cbn. intros f v (pk & fl & Hp' & _). by rewrite Hp in Hp'. }
    assert (Hin : ∀ p f v, func_at (meta s) p f n v → p ∈ ssort (elements (dom (meta s) : gset string)) ∧ is_Some (get p)).
    { intros p f v Hf. split.
      - destruct Hf as (pk & _ & Hp & _). rewrite elem_of_ssort, elem_of_elements. by eapply elem_of_dom_2.
      - destruct (get p) eqn:E; [by eexists|]. specialize (Hget p). rewrite E in Hget. exfalso. by eapply Hget. }
    destruct (first_of get _) as [v|] eqn:E; cbn.
    - apply first_of_some in E as (p & Hp & Hv & Hl); [|apply ssort_sorted]. pose proof (Hget p) as G. rewrite Hv in G.
      destruct G as (f & Hf & Hleast). exists p, f. split; [done|]. intros p' f' v' H'. destruct (Hin _ _ _ H') as [Hp' Hs'].
      destruct (decide (p = p')) as [<-|Hne]; [left; split; [done|by eapply Hleast]|right; split; [done|by apply Hl]].
    - intros p f v Hf. destruct (Hin _ _ _ Hf) as [Hp [w Hw]]. rewrite (first_of_none _ _ E p Hp) in Hw. done.
  Qed.
  Theorem C35_package_names_partial s : assembled s → sorted_names (sorted_package_names s).2 (λ p, is_Some (meta s !! p)).
  Proof.
    intros Hs. destruct (assembled_ok s Hs) as [_ Hgl]. destruct (sorted_package_names_global s Hgl) as [_ ->].
    split; [apply ssort_sorted|]. split; [apply NoDup_ssort, NoDup_elements|]. intros x. by rewrite elem_of_ssort, elem_of_elements, elem_of_dom.
  Qed.
End spec.
Print Assumptions C35_type_lookup.
Print Assumptions C35_function_lookup.
Print Assumptions C35_file_names.
Print Assumptions C35_type_names.
Print Assumptions C35_anywhere_partial.
Print Assumptions C35_package_names_partial.

(** ** Where the full statement fails *)
(** A replacement that keeps the counts is not noticed: the package then answers from the metadata
    it had before. *)
Definition one_type (n : string) (v : nat) : metadata nat := {[ "m/api" := {[ "api.go" := Some (File {[ n := v ]} ∅) ]} ]}.
Theorem C35_replacement_refuted :
  ∃ (m m' : metadata nat) p n, let s := with_meta m' (ask (start m) (QType p n)) in
    ¬ correct (type_at (meta s) p) n (type_in_package s p n).2.
Proof.
  exists (one_type "User" 1), (one_type "User" 2), "m/api", "User". cbn zeta.
  assert ((type_in_package (with_meta (one_type "User" 2) (ask (start (one_type "User" 1)) (QType "m/api" "User"))) "m/api" "User").2 = Some 1) as -> by by vm_compute.
  intros (f & (pk & fl & Hp & Hf & Hv) & _). cbn [meta with_meta] in Hp. unfold one_type in Hp. rewrite lookup_singleton in Hp.
  injection Hp as <-. apply lookup_singleton_Some in Hf as [_ [= <-]]. cbn in Hv. by rewrite lookup_singleton in Hv.
Qed.
(** Whole-program lookups are never rebuilt: a function declared after the first one is not found,
    though the metadata only grew. *)
Definition one_func (n : string) (v : nat) : metadata nat := {[ "m/api" := {[ "api.go" := Some (File ∅ {[ n := v ]}) ]} ]}.
Theorem C35_anywhere_refuted :
  ∃ (s : state nat) n, reached s ∧ ¬ correct_anywhere (meta s) n (function_anywhere s n).2.
Proof.
  exists (with_meta (one_func "List" 1) (ask (start ∅) (QAnywhere "List"))), "List". split.
  - apply reached_grow; [apply reached_ask, reached_start|]. intros p a H. done.
  - assert ((function_anywhere (with_meta (one_func "List" 1) (ask (start ∅) (QAnywhere "List"))) "List").2 = None) as -> by by vm_compute.
    cbn. intros H. apply (H "m/api" "api.go" 1). eexists _, _. split; [by apply lookup_singleton|].
    split; [by apply lookup_singleton|by apply lookup_singleton].
Qed.
Theorem C35_package_names_refuted :
  ∃ (s : state nat), reached s ∧ ¬ sorted_names (sorted_package_names s).2 (λ p, is_Some (meta s !! p)).
Proof.
  exists (with_meta (one_func "List" 1) (ask (start ∅) QPkgs)). split.
  - apply reached_grow; [apply reached_ask, reached_start|]. intros p a H. done.
  - assert ((sorted_package_names (with_meta (one_func "List" 1) (ask (start ∅) QPkgs))).2 = []) as -> by by vm_compute.
    intros (_ & _ & H). assert ("m/api" ∈ @nil string) as ?%elem_of_nil; [|done]. apply H. eexists. by apply lookup_singleton.
Qed.
Print Assumptions C35_replacement_refuted.
Print Assumptions C35_anywhere_refuted.
Print Assumptions C35_package_names_refuted.

(** A history meeting the hypotheses: two files declare [User], the second arriving between two
    lookups; the answer moves to the file that sorts first. *)
Definition two_files : metadata nat :=
  {[ "m/api" := {[ "b.go" := Some (File {[ "User" := 1 ]} {[ "List" := 3 ]}); "a.go" := Some (File {[ "User" := 2 ]} ∅); "gone.go" := None ]} ]}.
Definition first_file : metadata nat := {[ "m/api" := {[ "b.go" := Some (File {[ "User" := 1 ]} {[ "List" := 3 ]}) ]} ]}.
Example C35_history : let s := ask (with_meta two_files (ask (start first_file) (QType "m/api" "User"))) (QFiles "m/api") in
  reached s ∧ (type_in_package (start first_file) "m/api" "User").2 = Some 1 ∧ (type_in_package s "m/api" "User").2 = Some 2 ∧
  (sorted_file_names s "m/api").2 = ["a.go"; "b.go"; "gone.go"] ∧ (function_in_package s "m/api" "List").2 = Some 3 ∧
  (sorted_types s "m/api" "b.go").2 = ["User"].
Proof.
  cbn zeta. split; [|by vm_compute]. apply reached_ask, reached_grow; [apply reached_ask, reached_start|].
  change (grows first_file two_files). intros p a H. unfold first_file in H. apply lookup_singleton_Some in H as [<- <-].
  eexists. split; [by apply lookup_singleton|]. intros f o H. apply lookup_singleton_Some in H as [<- <-].
  eexists. split; [by vm_compute|]. done.
Qed.
Example C35_whole_program : let s := ask (ask (ask (start two_files) (QFunc "m/api" "List")) QPkgs) (QAnywhere "List") in
  assembled s ∧ (function_anywhere s "List").2 = Some 3 ∧ (function_anywhere s "User").2 = None ∧ (sorted_package_names s).2 = ["m/api"].
Proof. cbn zeta. split; [|by vm_compute]. by apply ad_ask, ad_ask, ad_start, as_ask; [apply as_start|]. Qed.
