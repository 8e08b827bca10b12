(** * The order of assignment links: C47. *)
From stdpp Require Import sorting.
From stdpp Require Import base list strings gmap.
From Verif Require Import StrLib StrOrder SccSpec AssignModel.

(** ** Specification *)

(** slices.SortFunc with [link_cmp]: some rearrangement in which nothing is greater than what follows. *)
Definition sorts_links (m : ameta) (sort : list alink → list alink) : Prop :=
  ∀ l, sort l ≡ₚ l ∧ StronglySorted (λ a b, link_cmp m a b ≠ Gt) (sort l).
(** Every map iteration visits every key once. *)
Definition are_orders (orders : nat → bool → list string → list string) : Prop := ∀ i b, is_order (orders i b).
(** The order that the sort is meant to produce: producing call, then function, package, name, type. *)
Definition rank (m : ameta) (l : alink) : list string :=
  [edge_id m l; ak_container (al_key l); ak_pkg (al_key l); ak_name (al_key l); ak_type (al_key l)].
Fixpoint lex_le (a b : list string) : Prop :=
  match a, b with
  | [], _ => True
  | _, [] => False
  | x :: a, y :: b => String.compare x y = Lt ∨ (x = y ∧ lex_le a b)
  end.

(** ** Lemmas *)
#[local] Instance lex_le_antisymm : AntiSymm eq lex_le.
Proof.
  intros a. induction a as [|x a IH]; intros [|y b]; cbn; try done. intros [H1|[-> H1]] [H2|[E H2]].
  - pose proof (string_compare_lt_trans x y x H1 H2) as H. rewrite string_compare_refl in H. done.
  - subst. rewrite string_compare_refl in H1. done.
  - rewrite string_compare_refl in H2. done.
  - f_equal. by apply IH.
Qed.
#[local] Instance lex_le_trans : Transitive lex_le.
Proof.
  intros a. induction a as [|x a IH]; intros [|y b] [|z c]; cbn; try done. intros [H1|[-> H1]] [H2|[-> H2]]; [left|by left|by left|right; split; [done|by apply (IH b)]].
  by apply (string_compare_lt_trans x y z).
Qed.
Lemma cmp_or_lt x y cs : cmp_or (String.compare x y :: cs) ≠ Gt → String.compare x y = Lt ∨ (x = y ∧ cmp_or cs ≠ Gt).
Proof.
  unfold cmp_or. destruct (String.compare x y) eqn:E; cbn; [|by left|done]. intros H. right. split; [|done]. by apply String.compare_eq_iff.
Qed.
Lemma link_cmp_lex m a b : link_cmp m a b ≠ Gt → lex_le (rank m a) (rank m b).
Proof.
  unfold link_cmp, rank. cbv zeta. intros H. cbn [lex_le]. repeat (apply cmp_or_lt in H as [H|[-> H]]; [by left|right; split; [done|]]). done.
Qed.
Lemma ssorted_weaken {A} (R S : A → A → Prop) l : (∀ a b, R a b → S a b) → StronglySorted R l → StronglySorted S l.
Proof. intros H. induction 1 as [|x l H1 IH Hf]; constructor; [done|]. eapply Forall_impl; [done|]. intros b. apply H. Qed.
Lemma ssorted_fmap {A B} (f : A → B) (R : B → B → Prop) l : StronglySorted (λ a b, R (f a) (f b)) l → StronglySorted R (f <$> l).
Proof. induction 1 as [|x l H1 IH Hf]; cbn; constructor; [done|]. rewrite Forall_fmap. done. Qed.
Lemma rank_key m a b : rank m a = rank m b → al_key a = al_key b.
Proof. unfold rank. intros [= _ H1 H2 H3 H4]. destruct (al_key a), (al_key b). cbn in *. congruence. Qed.
(** Inserting under distinct keys is the same in every order. *)
Lemma foldl_insert_perm {K V} `{Countable K} (f : string → option (K * V)) (l1 l2 : list string) :
  (∀ a b x y, f a = Some x → f b = Some y → x.1 = y.1 → a = b) → l1 ≡ₚ l2 → NoDup l1 →
  ∀ acc : gmap K V, foldl (λ acc v, match f v with Some (k, x) => <[ k := x ]> acc | None => acc end) acc l1 =
    foldl (λ acc v, match f v with Some (k, x) => <[ k := x ]> acc | None => acc end) acc l2.
Proof.
  intros Hinj Hp. induction Hp as [|x l l' Hp IH|x y l|l l' l'' H1 IH1 H2 IH2]; intros Hn acc; cbn; [done| | |].
  - apply NoDup_cons in Hn as [_ Hn]. by apply IH.
  - apply NoDup_cons in Hn as [Hy Hn]. assert (x ≠ y) as Hne by (intros ->; apply Hy; left). f_equal.
    destruct (f x) as [[k v]|] eqn:Ex, (f y) as [[k' v']|] eqn:Ey; try done. apply insert_commute. intros E. apply Hne. by apply (Hinj x y _ _ Ex Ey).
  - rewrite IH1 by done. apply IH2. by rewrite <- H1.
Qed.
Lemma foldl_ext_eq {A B} (f g : A → B → A) l : (∀ a b, b ∈ l → f a b = g a b) → ∀ a, foldl f a l = foldl g a l.
Proof.
  induction l as [|b l IH]; intros H a; cbn; [done|]. rewrite (H a b) by left. apply IH. intros a' b' Hb'. apply H. by right.
Qed.
Lemma keys_perm {A} (o1 o2 : list string → list string) (m : gmap string A) : is_order o1 → is_order o2 → keys_in o1 m ≡ₚ keys_in o2 m ∧ NoDup (keys_in o1 m).
Proof.
  intros H1 H2. unfold keys_in. split; [by rewrite (H1 _), (H2 _)|]. rewrite (H1 _). apply NoDup_fst_map_to_list.
Qed.
Definition main_entry (i : nat) (e : aedge) (assigns : gmap string (list assignment)) (v : string) : option (akey * alink) :=
  a ← assigns !! v ≫= last; if decide (ae_recv e = v) then let k := AKey v (ae_pkg e) (as_type a) (ae_caller e) in Some (k, ALink k a i) else None.
Definition edge_entry (m : ameta) (i : nat) (e : aedge) (v : string) : option (akey * alink) :=
  a ← ae_assigns e !! v ≫= last; let k := AKey v (as_pkg a) (as_type a) (as_func a) in Some (k, ALink k a (nested_edge m i e v)).
Lemma main_entry_name i e assigns v x : main_entry i e assigns v = Some x → ak_name x.1 = v ∧ al_key x.2 = x.1.
Proof.
  unfold main_entry. destruct (assigns !! v ≫= last) as [a|]; cbn; [|done]. destruct (decide _); [|done]. by intros [= <-].
Qed.
Lemma edge_entry_name m i e v x : edge_entry m i e v = Some x → ak_name x.1 = v ∧ al_key x.2 = x.1.
Proof. unfold edge_entry. destruct (ae_assigns e !! v ≫= last) as [a|]; cbn; [|done]. by intros [= <-]. Qed.
Lemma link_main_entry i e assigns acc v : link_main i e assigns acc v = match main_entry i e assigns v with Some (k, x) => <[ k := x ]> acc | None => acc end.
Proof. unfold link_main, main_entry. destruct (assigns !! v ≫= last) as [a|]; cbn; [|done]. by destruct (decide _). Qed.
Lemma link_edge_entry m i e acc v : link_edge m i e acc v = match edge_entry m i e v with Some (k, x) => <[ k := x ]> acc | None => acc end.
Proof. unfold link_edge, edge_entry. by destruct (ae_assigns e !! v ≫= last) as [a|]. Qed.
Lemma fold_main o1 o2 i e assigns acc : is_order o1 → is_order o2 →
  foldl (link_main i e assigns) acc (keys_in o1 assigns) = foldl (link_main i e assigns) acc (keys_in o2 assigns).
Proof.
  intros H1 H2. destruct (keys_perm o1 o2 assigns H1 H2) as [Hp Hn].
  rewrite (foldl_ext_eq _ (λ acc v, match main_entry i e assigns v with Some (k, x) => <[ k := x ]> acc | None => acc end) (keys_in o1 assigns)) by (intros; apply link_main_entry).
  rewrite (foldl_ext_eq _ (λ acc v, match main_entry i e assigns v with Some (k, x) => <[ k := x ]> acc | None => acc end) (keys_in o2 assigns)) by (intros; apply link_main_entry).
  apply foldl_insert_perm; [|done|done]. intros a b x y Ha Hb E. apply main_entry_name in Ha as [<- _], Hb as [<- _]. by rewrite E.
Qed.
Lemma fold_edge m o1 o2 i e acc : is_order o1 → is_order o2 →
  foldl (link_edge m i e) acc (keys_in o1 (ae_assigns e)) = foldl (link_edge m i e) acc (keys_in o2 (ae_assigns e)).
Proof.
  intros H1 H2. destruct (keys_perm o1 o2 (ae_assigns e) H1 H2) as [Hp Hn].
  rewrite (foldl_ext_eq _ (λ acc v, match edge_entry m i e v with Some (k, x) => <[ k := x ]> acc | None => acc end) (keys_in o1 _)) by (intros; apply link_edge_entry).
  rewrite (foldl_ext_eq _ (λ acc v, match edge_entry m i e v with Some (k, x) => <[ k := x ]> acc | None => acc end) (keys_in o2 _)) by (intros; apply link_edge_entry).
  apply foldl_insert_perm; [|done|done]. intros a b x y Ha Hb E. apply edge_entry_name in Ha as [<- _], Hb as [<- _]. by rewrite E.
Qed.
Lemma link_one_order m orders orders' acc ie : are_orders orders → are_orders orders' → link_one m orders acc ie = link_one m orders' acc ie.
Proof.
  intros H1 H2. destruct ie as [i e]. unfold link_one. rewrite (fold_edge m (orders i false) (orders' i false)) by done. f_equal.
  apply foldl_ext_eq. intros a file _. unfold link_file. destruct (file !! ae_caller e) as [assigns|]; [|done]. destruct (decide _); [|done]. by apply fold_main.
Qed.
(** Every link is stored under its own key. *)
Definition keyed_links (links : gmap akey alink) : Prop := ∀ k l, links !! k = Some l → al_key l = k.
Lemma foldl_keep {A B} (P : A → Prop) (f : A → B → A) l : (∀ a b, P a → P (f a b)) → ∀ a, P a → P (foldl f a l).
Proof. intros H. induction l as [|b l IH]; intros a Ha; cbn; [done|]. by apply IH, H. Qed.
Lemma insert_keyed (k : akey) l acc : al_key l = k → keyed_links acc → keyed_links (<[ k := l ]> acc).
Proof. intros H1 H2 k' l' [[<- <-]|[_ H]]%lookup_insert_Some; [done|]. by apply H2. Qed.
Lemma build_keyed m orders : keyed_links (build_links m orders).
Proof.
  unfold build_links. apply foldl_keep; [|by intros k l; rewrite lookup_empty]. intros acc [i e] Hacc. unfold link_one. apply foldl_keep.
  - intros a v Ha. rewrite link_edge_entry. destruct (edge_entry m i e v) as [[k x]|] eqn:E; [|done]. apply edge_entry_name in E as [_ E]. by apply insert_keyed.
  - apply foldl_keep; [|done]. intros a file Ha. unfold link_file. destruct (file !! ae_caller e) as [assigns|]; [|done]. destruct (decide _); [|done]. apply foldl_keep; [|done].
    intros a' v Ha'. rewrite link_main_entry. destruct (main_entry i e assigns v) as [[k x]|] eqn:E; [|done]. apply main_entry_name in E as [_ E]. by apply insert_keyed.
Qed.
Lemma foldl_insert_keeps m i e l : ∀ acc k, is_Some (acc !! k) → is_Some (foldl (link_edge m i e) acc l !! k).
Proof.
  intros acc k. apply (foldl_keep (λ a, is_Some (a !! k))). intros a v Ha. rewrite link_edge_entry. destruct (edge_entry m i e v) as [[k' x]|]; [|done].
  destruct (decide (k' = k)) as [->|Hne]; [by rewrite lookup_insert|by rewrite lookup_insert_ne].
Qed.

(** ** The property *)

(** The links do not depend on the order in which any of the maps is iterated. *)
Theorem C47_links_fixed m orders orders' : are_orders orders → are_orders orders' → build_links m orders = build_links m orders'.
Proof. intros H1 H2. unfold build_links. apply foldl_ext_eq. intros acc ie _. by apply link_one_order. Qed.
(** Their order does not depend on the iteration of the link map nor on how the sort treats equal
    elements, and every link comes exactly once. *)
Theorem C47_order_fixed m sort sort' order order' orders : sorts_links m sort → sorts_links m sort' → (∀ l, order l ≡ₚ l) → (∀ l, order' l ≡ₚ l) →
  let links := build_links m orders in
  sorted_links sort order links = sorted_links sort' order' links ∧
  NoDup (sorted_links sort order links) ∧
  (∀ l, l ∈ sorted_links sort order links ↔ links !! al_key l = Some l) ∧
  StronglySorted lex_le (rank m <$> sorted_links sort order links).
Proof.
  intros Hs Hs' Ho Ho' links. pose proof (build_keyed m orders) as Hk. fold links in Hk. unfold sorted_links.
  destruct (Hs (order (map_to_list links).*2)) as [P1 S1]. destruct (Hs' (order' (map_to_list links).*2)) as [P2 S2].
  set (l1 := sort _) in *. set (l2 := sort' _) in *. rewrite (Ho _) in P1. rewrite (Ho' _) in P2.
  assert (∀ a, a ∈ (map_to_list links).*2 ↔ links !! al_key a = Some a) as Hin.
  { intros a. rewrite elem_of_list_fmap. split.
    - intros ([k x] & -> & Hx). apply elem_of_map_to_list in Hx. cbn. by rewrite (Hk k x Hx).
    - intros Ha. exists (al_key a, a). split; [done|]. by apply elem_of_map_to_list. }
  assert (NoDup (al_key <$> (map_to_list links).*2)) as Hnk.
  { rewrite <- list_fmap_compose. rewrite (list_fmap_ext (al_key ∘ snd) fst); [apply NoDup_fst_map_to_list|]. intros i [k x] Hx. cbn. apply Hk. apply elem_of_map_to_list. by eapply elem_of_list_lookup_2. }
  assert (∀ l, l ≡ₚ (map_to_list links).*2 → ∀ a b, a ∈ l → b ∈ l → rank m a = rank m b → a = b) as Hinj.
  { intros l Hl a b Ha Hb E. rewrite Hl in Ha, Hb. apply Hin in Ha, Hb. apply rank_key in E. congruence. }
  assert (rank m <$> l1 = rank m <$> l2) as Er.
  { apply (StronglySorted_unique lex_le).
    - apply ssorted_fmap. eapply ssorted_weaken; [|exact S1]. intros a b. apply link_cmp_lex.
    - apply ssorted_fmap. eapply ssorted_weaken; [|exact S2]. intros a b. apply link_cmp_lex.
    - by rewrite P1, P2. }
  assert (l1 ≡ₚ l2) as P12 by by rewrite P1, P2.
  split; [|split; [|split]].
  - apply (list_eq_same_length _ _ (length l1)); [|done|].
    + by rewrite P12.
    + intros i a b _ Ha Hb. pose proof (f_equal (λ l, l !! i) Er) as Ei. cbn in Ei. rewrite !list_lookup_fmap, Ha, Hb in Ei. cbn in Ei. injection Ei as Ei.
      apply elem_of_list_lookup_2 in Ha, Hb. apply (Hinj l1 P1); [done|by rewrite P12|]. unfold rank. congruence.
  - rewrite P1. by apply NoDup_fmap_1 in Hnk.
  - intros l. rewrite P1. apply Hin.
  - apply ssorted_fmap. eapply ssorted_weaken; [|exact S1]. intros a b. apply link_cmp_lex.
Qed.
(** Every variable an edge assigns has a link under the key of its latest assignment. *)
Theorem C47_every_assignment_linked m orders i e v before a : are_orders orders → am_edges m !! i = Some e → ae_assigns e !! v = Some (before ++ [a]) →
  is_Some (build_links m orders !! AKey v (as_pkg a) (as_type a) (as_func a)).
Proof.
  intros Ho Hi Hv. unfold build_links. set (k := AKey _ _ _ _).
  assert ((i, e) ∈ imap pair (am_edges m)) as Hin.
  { apply elem_of_list_lookup. exists i. by rewrite list_lookup_imap, Hi. }
  apply elem_of_list_split in Hin as (l1 & l2 & ->). rewrite foldl_app. cbn [foldl].
  assert (∀ l acc, is_Some (acc !! k) → is_Some (foldl (link_one m orders) acc l !! k)) as Hkeep.
  { intros l acc. apply (foldl_keep (λ a, is_Some (a !! k))). clear - Ho. intros acc [j e'] Hacc. unfold link_one. apply foldl_insert_keeps. revert Hacc. apply (foldl_keep (λ a, is_Some (a !! k))).
    intros b file Hb. unfold link_file. destruct (file !! ae_caller e') as [assigns|]; [|done]. destruct (decide _); [|done]. revert Hb. apply (foldl_keep (λ a, is_Some (a !! k))).
    intros b' w Hb'. rewrite link_main_entry. destruct (main_entry j e' assigns w) as [[k' x]|]; [|done]. destruct (decide (k' = k)) as [->|Hne]; [by rewrite lookup_insert|by rewrite lookup_insert_ne]. }
  apply Hkeep. set (acc := foldl _ ∅ l1). unfold link_one.
  assert (v ∈ keys_in (orders i false) (ae_assigns e)) as Hk.
  { unfold keys_in. rewrite (Ho i false _). apply elem_of_list_fmap. exists (v, before ++ [a]). split; [done|]. by apply elem_of_map_to_list. }
  apply elem_of_list_split in Hk as (k1 & k2 & ->). rewrite foldl_app. cbn [foldl]. apply foldl_insert_keeps. rewrite link_edge_entry. unfold edge_entry. rewrite Hv. cbn. rewrite last_snoc. cbn.
  by rewrite lookup_insert.
Qed.
(** The call an assignment of [v] from call [i] belongs to: the first call the callee makes on [v], or [i] itself. *)
Definition linked_call (m : ameta) (i : nat) (e : aedge) (v : string) (j : nat) : Prop :=
  (∃ before after, am_callers m (ae_base e) = before ++ j :: after ∧ ae_recv <$> am_edges m !! j = Some v ∧ ∀ j', j' ∈ before → ae_recv <$> am_edges m !! j' ≠ Some v)
  ∨ (j = i ∧ ∀ j', j' ∈ am_callers m (ae_base e) → ae_recv <$> am_edges m !! j' ≠ Some v).
(** Where a link may come from: the latest assignment recorded at a call, or one of main's for a call it makes on the variable. *)
Definition from_call (m : ameta) (k : akey) (l : alink) : Prop :=
  ∃ i e before a, am_edges m !! i = Some e ∧ ae_assigns e !! ak_name k = Some (before ++ [a]) ∧ k = AKey (ak_name k) (as_pkg a) (as_type a) (as_func a)
    ∧ al_assignment l = a ∧ linked_call m i e (ak_name k) (al_edge l).
Definition from_main (m : ameta) (k : akey) (l : alink) : Prop :=
  ∃ i e file assigns before a, am_edges m !! i = Some e ∧ ae_caller e = "main" ∧ ae_recv e = ak_name k ∧ file ∈ am_files m (ae_pkg e) ∧ file !! "main" = Some assigns ∧ assigns !! ak_name k = Some (before ++ [a])
    ∧ k = AKey (ak_name k) (ae_pkg e) (as_type a) "main" ∧ al_assignment l = a ∧ al_edge l = i.
Lemma nested_edge_spec m i e v : linked_call m i e v (nested_edge m i e v).
Proof.
  unfold nested_edge, linked_call. destruct (list_find _ (am_callers m (ae_base e))) as [[n j]|] eqn:E.
  - left. apply list_find_Some in E as (Hj & Hr & Hb). exists (take n (am_callers m (ae_base e))), (drop (S n) (am_callers m (ae_base e))). split; [by rewrite take_drop_middle|]. split; [done|].
    intros j' Hj'. apply elem_of_take in Hj' as (i' & Hi' & Hlt). by apply (Hb i').
  - right. split; [done|]. intros j' Hj' H. apply list_find_None in E. rewrite Forall_forall in E. by apply (E j').
Qed.
Lemma last_snoc_inv {A} (l : list A) a : last l = Some a → ∃ before, l = before ++ [a].
Proof. intros H. apply last_Some in H as [l' ->]. by exists l'. Qed.
(** Every link is about a recorded assignment and the call that uses it. *)
Theorem C47_links_come_from m orders k l : are_orders orders → build_links m orders !! k = Some l → al_key l = k ∧ (from_call m k l ∨ from_main m k l).
Proof.
  intros Ho. set (ok := λ acc : gmap akey alink, ∀ k l, acc !! k = Some l → al_key l = k ∧ (from_call m k l ∨ from_main m k l)).
  assert (ok (build_links m orders)) as H; [|apply H].
  unfold build_links. assert (∀ ies, (∀ i e, (i, e) ∈ ies → am_edges m !! i = Some e) → ∀ acc, ok acc → ok (foldl (link_one m orders) acc ies)) as Hall.
  2:{ apply Hall; [|intros k' l' Hk'; by rewrite lookup_empty in Hk']. intros i e Hin. apply elem_of_list_lookup in Hin as [n Hn]. rewrite list_lookup_imap in Hn. destruct (am_edges m !! n) as [e'|] eqn:E; [|done]. cbn in Hn. injection Hn as -> ->. done. }
  induction ies as [|[i e] ies IH]; intros Hies acc Hacc; [done|]. cbn [foldl]. apply IH; [intros i' e' Hin; apply Hies; by right|]. assert (am_edges m !! i = Some e) as Hie by (apply Hies; by left). clear IH Hies ies.
  unfold link_one. assert (∀ vs acc, ok acc → ok (foldl (link_edge m i e) acc vs)) as He.
  { induction vs as [|v vs IHv]; intros b Hb; [done|]. cbn [foldl]. apply IHv. unfold link_edge. destruct (ae_assigns e !! v) as [as_|] eqn:Ea; cbn; [|done]. destruct (last as_) as [a|] eqn:El; [|done]. apply last_snoc_inv in El as [before ->].
    intros k' l' Hk. apply lookup_insert_Some in Hk as [[<- <-]|[_ Hk]]; [|by apply Hb]. split; [done|]. left. exists i, e, before, a. cbn [ak_name al_edge al_assignment]. split; [done|]. split; [done|]. split; [done|]. split; [done|]. apply nested_edge_spec. }
  apply He. assert (∀ files, (∀ f, f ∈ files → f ∈ am_files m (ae_pkg e)) → ∀ acc, ok acc → ok (foldl (link_file (orders i true) i e) acc files)) as Hf; [|by apply Hf].
  induction files as [|f files IHf]; intros Hsub b Hb; [done|]. cbn [foldl]. apply IHf; [intros f' Hf'; apply Hsub; by right|]. unfold link_file.
  destruct (f !! ae_caller e) as [assigns|] eqn:Ef; [|done]. destruct (decide (ae_caller e = main_func)) as [Em|]; [|done]. generalize (keys_in (orders i true) assigns). intros vs. revert b Hb. induction vs as [|v vs IHv]; intros b Hb; [done|]. cbn [foldl]. apply IHv.
  unfold link_main. destruct (assigns !! v) as [as_|] eqn:Ea; cbn; [|done]. destruct (last as_) as [a|] eqn:El; [|done]. apply last_snoc_inv in El as [before ->]. destruct (decide (ae_recv e = v)) as [Hr|]; [|done].
  intros k' l' Hk. apply lookup_insert_Some in Hk as [[<- <-]|[_ Hk]]; [|by apply Hb]. split; [done|]. right. exists i, e, f, assigns, before, a. cbn [ak_name al_edge al_assignment]. rewrite Em in *. repeat (split; [done|]). split; [apply Hsub; by left|]. done.
Qed.
(** And the variables main assigns are linked for every call it makes on them. *)
Theorem C47_main_linked m orders i e file assigns before a : are_orders orders → am_edges m !! i = Some e → ae_caller e = "main" → file ∈ am_files m (ae_pkg e) → file !! "main" = Some assigns →
  assigns !! ae_recv e = Some (before ++ [a]) → is_Some (build_links m orders !! AKey (ae_recv e) (ae_pkg e) (as_type a) "main").
Proof.
  intros Ho Hi Hm Hfile Hmain Hv. unfold build_links. set (k := AKey _ _ _ _).
  assert ((i, e) ∈ imap pair (am_edges m)) as Hin. { apply elem_of_list_lookup. exists i. by rewrite list_lookup_imap, Hi. }
  assert (∀ j e' b w assigns, is_Some (b !! k) → is_Some (link_main j e' assigns b w !! k)) as Hk1.
  { intros j e' b w asg Hb. unfold link_main. destruct (asg !! w ≫= last); [|done]. destruct (decide (ae_recv e' = w)); [|done]. match goal with |- is_Some (<[?k' := _]> _ !! _) => destruct (decide (k' = k)) as [->|Hne]; [by rewrite lookup_insert|by rewrite lookup_insert_ne] end. }
  assert (∀ o j e' b f, is_Some (b !! k) → is_Some (link_file o j e' b f !! k)) as Hk2.
  { intros o j e' b f Hb. unfold link_file. destruct (f !! ae_caller e') as [asg|]; [|done]. destruct (decide (ae_caller e' = main_func)); [|done]. revert Hb. apply (foldl_keep (λ a, is_Some (a !! k))). intros b' w Hb'. by apply Hk1. }
  assert (∀ l acc, is_Some (acc !! k) → is_Some (foldl (link_one m orders) acc l !! k)) as Hkeep.
  { intros l acc. apply (foldl_keep (λ a, is_Some (a !! k))). clear -Hk2. intros acc [j e'] Hacc. unfold link_one. apply foldl_insert_keeps. revert Hacc. apply (foldl_keep (λ a, is_Some (a !! k))). intros b file Hb. by apply Hk2. }
  apply elem_of_list_split in Hin as (l1 & l2 & ->). rewrite foldl_app. cbn [foldl]. apply Hkeep. unfold link_one. apply foldl_insert_keeps. generalize (foldl (link_one m orders) ∅ l1). intros acc.
  apply elem_of_list_split in Hfile as (f1 & f2 & ->). rewrite foldl_app. cbn [foldl]. apply (foldl_keep (λ a, is_Some (a !! k))); [intros b f Hb; by apply Hk2|]. generalize (foldl (link_file (orders i true) i e) acc f1). intros acc'.
  unfold link_file. rewrite Hm, Hmain. rewrite decide_True by done.
  assert (ae_recv e ∈ keys_in (orders i true) assigns) as Hkey. { unfold keys_in. rewrite (Ho i true _). apply elem_of_list_fmap. exists (ae_recv e, before ++ [a]). split; [done|]. by apply elem_of_map_to_list. }
  apply elem_of_list_split in Hkey as (k1 & k2 & ->). rewrite foldl_app. cbn [foldl]. apply (foldl_keep (λ a, is_Some (a !! k))); [intros b f Hb; by apply Hk1|].
  unfold link_main at 1. rewrite Hv. cbn. rewrite last_snoc. cbn. rewrite decide_True by done. unfold k. rewrite Hm. by rewrite lookup_insert.
Qed.
Print Assumptions C47_links_come_from.
Print Assumptions C47_main_linked.
Print Assumptions C47_links_fixed.
Print Assumptions C47_order_fixed.
Print Assumptions C47_every_assignment_linked.

(** Two variables assigned from one call, and a third from main's own assignments. *)
Definition assign_example : ameta :=
  AMeta [AEdge "Setup" "app" "" "app.New@1" "app.New" {[ "a" := [Assignment "app" "R" "Setup" "1"]; "b" := [Assignment "app" "R" "Setup" "0"; Assignment "app" "S" "Setup" "2"] ]};
         AEdge "main" "app" "r" "app.Run@2" "app.Run" ∅]
        (λ _, []) (λ _, [ {[ "main" := {[ "r" := [Assignment "app" "R" "main" "3"]; "x" := [Assignment "app" "R" "main" "4"] ]} ]} ]).
#[local] Instance link_le_dec m : RelDecision (λ a b, link_cmp m a b ≠ Gt) := λ a b, decide (link_cmp m a b ≠ Gt).
Example C47_example :
  (λ l, (ak_name (al_key l), ak_type (al_key l), al_edge l)) <$>
    sorted_links (merge_sort (λ a b, link_cmp assign_example a b ≠ Gt)) (λ l, l) (build_links assign_example (λ _ _ l, l)) =
  [("a", "R", 0); ("b", "S", 0); ("r", "R", 1)].
Proof. vm_compute. done. Qed.
(** Linked to the call made on the variable, not to the one that assigned it. *)
Definition assign_nested : ameta :=
  AMeta [AEdge "Setup" "app" "" "app.New@1" "app.New" {[ "r" := [Assignment "app" "R" "New" "1"] ]}; AEdge "New" "app" "r" "app.Use@2" "app.Use" ∅] (λ b, if decide (b = "app.New") then [1] else []) (λ _, []).
Example C47_nested : (λ l, (ak_name (al_key l), al_edge l)) <$> build_links assign_nested (λ _ _ l, l) !! AKey "r" "app" "R" "New" = Some ("r", 1).
Proof. vm_compute. done. Qed.
