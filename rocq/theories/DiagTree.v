(** * Diagram pages: the order of a tracker tree's nodes. Lemmas for C65. *)
From Coq Require Import Ascii ZArith.
From stdpp Require Import base numbers list strings gmap relations.
From Verif Require Import StrLib ReachProofs DiagModel DiagSpec DiagProofs DiagPages.

Lemma tree_roots_in edges ns r : r ∈ tree_roots edges ns → r ∈ n_id <$> ns.
Proof.
  unfold tree_roots. set (main := last _). set (others := n_id <$> _).
  assert (∀ r, r ∈ others → r ∈ n_id <$> ns) as Ho. { intros r' Hr. apply elem_of_list_fmap in Hr as (n & -> & Hn). apply elem_of_list_filter in Hn as [_ Hn]. apply elem_of_list_fmap. by exists n. }
  destruct main as [m|] eqn:Em.
  { intros Hr. apply elem_of_cons in Hr as [-> | Hr]; [|by apply Ho]. unfold main in Em. rewrite last_lookup in Em. apply elem_of_list_lookup_2, elem_of_list_filter in Em as [_ Hm]. apply elem_of_list_fmap. by exists m. }
  destruct others as [|o os] eqn:Eo; [|intros Hr; by apply Ho]. set (least := match n_depth <$> ns with [] => 0 | d :: ds => foldr Nat.min d ds end).
  assert (∀ l (acc : list string), (∀ n, n ∈ l → n ∈ ns) → (∀ r, r ∈ acc → r ∈ n_id <$> ns) → ∀ r, r ∈ foldl (λ acc n, if is_main n then n_id n :: acc else acc ++ [n_id n]) acc l → r ∈ n_id <$> ns) as Hf.
  { induction l as [|n l IH]; intros acc Hl Ha r' Hr; [by apply Ha|]. cbn [foldl] in Hr. revert Hr. apply IH; [intros m Hm; apply Hl; by right|]. intros x Hx.
    assert (x ∈ acc ∨ x = n_id n) as [?|Hxn] by (destruct (is_main n); [apply elem_of_cons in Hx as [?|?]; auto|apply elem_of_app in Hx as [?|Hx]; [auto|apply elem_of_list_singleton in Hx; auto]]); [by apply Ha|]. subst x. apply elem_of_list_fmap. exists n. split; [done|]. apply Hl. by left. }
  apply Hf; [|by intros ? ?%elem_of_nil]. intros n Hn. by apply elem_of_list_filter in Hn as [_ ?].
Qed.
Definition shown_edges (all_edges : bool) (data : ddata) : list dedge := if all_edges then d_edges data else filter (λ e, e_type e = "calls") (d_edges data).
Definition kids_of (es : list dedge) (x : string) : list string := e_dst <$> filter (λ e, e_src e = x) es.
Lemma kids_drawn es x y : y ∈ kids_of es x ↔ drawn es x y.
Proof.
  unfold kids_of, drawn. rewrite elem_of_list_fmap. split.
  - intros (e & -> & He). apply elem_of_list_filter in He as [? ?]. by exists e.
  - intros (e & He & Hs & Hd). exists e. split; [done|]. by apply elem_of_list_filter.
Qed.
Lemma rtc_kids es x y : rtc (λ a b, b ∈ kids_of es a) x y ↔ rtc (drawn es) x y.
Proof. split; (induction 1 as [|a b c Hab _ IH]; [done|]; eapply rtc_l; [by apply kids_drawn|exact IH]). Qed.
Lemma elem_of_shown_node ns y n : NoDup (n_id <$> ns) → node_at ns y = Some n ↔ n ∈ ns ∧ n_id n = y.
Proof. intros Hu. split; [apply node_at_spec|]. intros [Hn <-]. by apply node_at_unique. Qed.
Lemma omap_nodes ns (l : list string) : NoDup (n_id <$> ns) → NoDup l → NoDup (omap (node_at ns) l) ∧ ∀ n, n ∈ omap (node_at ns) l ↔ n ∈ ns ∧ n_id n ∈ l.
Proof.
  intros Hu. induction l as [|y l IH]; intros Hl.
  { split; [apply NoDup_nil_2|]. intros n. cbn. split; [by intros ?%elem_of_nil|by intros [_ ?%elem_of_nil]]. }
  apply NoDup_cons in Hl as [Hy Hl]. destruct (IH Hl) as [H1 H2]. change (omap (node_at ns) (y :: l)) with (match node_at ns y with Some n => n :: omap (node_at ns) l | None => omap (node_at ns) l end). destruct (node_at ns y) as [m|] eqn:E.
  - apply node_at_spec in E as [Hm Hid]. split.
    + apply NoDup_cons. split; [|done]. intros Hin. apply H2 in Hin as [_ Hin]. apply Hy. by rewrite <- Hid.
    + intros n. rewrite elem_of_cons, H2, elem_of_cons. split; [intros [-> | [? ?]]; [split; [done|by left]|auto]|]. intros [Hn [Hny|?]]; [left|by right]. assert (node_at ns y = Some n) as E1 by (by apply elem_of_shown_node). assert (node_at ns y = Some m) as E2 by (by apply elem_of_shown_node). congruence.
  - split; [done|]. intros n. rewrite H2, elem_of_cons. split; [intros [? ?]; auto|]. intros [Hn [Hny|?]]; [|done]. exfalso. by apply (proj1 (node_at_none ns y) E n).
Qed.
Lemma omap_mjoin {A B} (f : A → option B) (ls : list (list A)) : omap f (mjoin ls) = mjoin (omap f <$> ls).
Proof. induction ls as [|l ls IH]; [done|]. cbn [mjoin list_join fmap list_fmap]. rewrite omap_app. by f_equal. Qed.
Lemma tree_order_spec all_edges data : unique_ids data →
  ∃ segs rest, tree_order all_edges data = mjoin segs ++ rest ∧ length segs = length (tree_roots (shown_edges all_edges data) (d_nodes data))
    ∧ NoDup (mjoin segs ++ rest) ∧ (∀ n, n ∈ mjoin segs ++ rest ↔ n ∈ d_nodes data) ∧ sublist rest (d_nodes data)
    ∧ (∀ i r seg, tree_roots (shown_edges all_edges data) (d_nodes data) !! i = Some r → segs !! i = Some seg →
        (∀ n, n ∈ seg ↔ n ∈ d_nodes data ∧ rtc (drawn (shown_edges all_edges data)) r (n_id n) ∧ ∀ j r', j < i → tree_roots (shown_edges all_edges data) (d_nodes data) !! j = Some r' → ¬ rtc (drawn (shown_edges all_edges data)) r' (n_id n))
        ∧ (seg = [] ∨ ∃ n l, seg = n :: l ∧ n_id n = r)).
Proof.
  intros Hu. set (es := shown_edges all_edges data). set (ns := d_nodes data). set (rs := tree_roots es ns).
  set (U := list_to_set ((n_id <$> ns) ++ (e_dst <$> es)) : gset string).
  assert (∀ x y, x ∈ U → y ∈ kids_of es x → y ∈ U) as HU.
  { intros x y _ Hy. apply elem_of_list_to_set, elem_of_app. right. apply elem_of_list_fmap in Hy as (e & -> & He). apply elem_of_list_filter in He as [_ He]. apply elem_of_list_fmap. by exists e. }
  assert (size U < S (length ns + length es)) as Hsz. { unfold U. pose proof (size_list_to_set_le ((n_id <$> ns) ++ (e_dst <$> es))) as H. rewrite app_length, !fmap_length in H. lia. }
  destruct (dfs_roots (kids_of es) U HU (S (length ns + length es)) rs) with (V := ∅ : gset string) (O := [] : list string) as (segs & S1 & S2 & S3 & S4 & S5).
  { intros r Hr. apply elem_of_list_to_set, elem_of_app. left. by eapply tree_roots_in. }
  { done. }
  { by intros x ?%elem_of_empty. }
  assert (tree_order all_edges data = let st := foldl (λ st r, dfs (S (length ns + length es)) (kids_of es) r st) (∅, []) rs in omap (node_at ns) st.2 ++ filter (λ n, n_id n ∉ st.1) ns) as Ht.
  { unfold tree_order. fold (shown_edges all_edges data). fold es. fold ns. fold rs. change (λ x, e_dst <$> filter (λ e, e_src e = x) es) with (kids_of es). by destruct (foldl _ _ rs). }
  cbv zeta in Ht. rewrite Ht, S2. destruct (foldl (λ st r, dfs (S (length ns + length es)) (kids_of es) r st) (∅, []) rs) as [vis ord]. cbn [fst snd] in *. clear Ht S2 ord. rewrite app_nil_l, omap_mjoin.
  assert (∀ y, y ∈ vis ↔ y ∈ mjoin segs) as Hvis. { intros y. rewrite S4. split; [by intros [?%elem_of_empty|?]|by right]. }
  destruct (omap_nodes ns (mjoin segs)) as [O1 O2]; [done|done|]. rewrite omap_mjoin in O1, O2.
  exists ((λ s : list string, omap (node_at ns) s) <$> segs), (filter (λ n, n_id n ∉ vis) ns). split; [done|]. split; [by rewrite fmap_length|]. split; [|split; [|split]].
  - apply NoDup_app. split; [done|]. split; [|apply NoDup_filter; by eapply NoDup_fmap_1]. intros n Hn Hn'. apply O2 in Hn as [_ Hn]. apply elem_of_list_filter in Hn' as [Hn' _]. by apply Hn', Hvis.
  - intros n. rewrite elem_of_app, O2, elem_of_list_filter, Hvis. destruct (decide (n_id n ∈ mjoin segs)) as [Hd|Hd]; clear -Hd; tauto.
  - apply filter_sublist.
  - intros i r seg Hr Hseg. apply list_lookup_fmap_Some in Hseg as (sg & Hsg & ->). destruct (S5 i r sg Hr Hsg) as [H1 H2]. assert (NoDup sg) as Hnd.
    { clear -S3 Hsg. revert i Hsg. induction segs as [|s segs IH]; intros [|i] Hsg; [done..| |]; cbn in Hsg; cbn in S3; apply NoDup_app in S3 as (Q1 & _ & Q2); [by injection Hsg as <-|by eapply IH]. }
    destruct (omap_nodes ns sg) as [_ Hin]; [done|done|]. split.
    + intros n. rewrite Hin, H1, rtc_kids. split.
      * intros (Hn & Hr1 & _ & Hj). split; [done|]. split; [done|]. intros j r' Hji Hr'. rewrite <- rtc_kids. by eapply Hj.
      * intros (Hn & Hr1 & Hj). split; [done|]. split; [done|]. split; [apply not_elem_of_empty|]. intros j r' Hji Hr'. rewrite rtc_kids. by eapply Hj.
    + destruct H2 as [-> | (rest & ->)]; [by left|]. right. assert (r ∈ n_id <$> ns) as Hrn by (eapply tree_roots_in, elem_of_list_lookup_2; exact Hr). apply elem_of_list_fmap in Hrn as (n & Hrn & Hn). exists n, (omap (node_at ns) rest). split; [|done].
      change (omap (node_at ns) (r :: rest)) with (match node_at ns r with Some n => n :: omap (node_at ns) rest | None => omap (node_at ns) rest end). rewrite Hrn, node_at_unique by done. done.
Qed.
Lemma tree_order_perm all_edges data : unique_ids data → tree_order all_edges data ≡ₚ d_nodes data.
Proof.
  intros Hu. destruct (tree_order_spec all_edges data Hu) as (segs & rest & -> & _ & Hnd & Hin & _). apply NoDup_Permutation; [done| |done]. by eapply NoDup_fmap_1.
Qed.

(** ** Ordering twice *)
Section twice.
  Context (kids : string → list string) (n : nat).
  Notation step := (λ (st : gset string * list string) (r : string), dfs (S n) kids r st).
  Lemma dfs_skip x st : x ∈ st.1 → dfs (S n) kids x st = st.
  Proof. intros H. cbn [dfs]. by rewrite bool_decide_eq_true_2. Qed.
  Lemma steps_skip l st : (∀ x, x ∈ l → x ∈ st.1) → foldl step st l = st.
  Proof. induction l as [|x l IH]; intros H; [done|]. cbn [foldl]. rewrite dfs_skip by (apply H; by left). apply IH. intros y Hy. apply H. by right. Qed.
  Lemma steps_again (p : string → bool) (U : gset string) (HU : ∀ x y, x ∈ U → y ∈ kids x → y ∈ U) os :
    (∀ r, r ∈ os → r ∈ U) → size U < S n → (∀ r, r ∈ os → p r = true) → ∀ V O, (∀ x, x ∈ V → ∀ y, y ∈ kids x → y ∈ V) →
    ∃ new, (foldl step (V, O) os).2 = O ++ new ∧ foldl step (V, O) (filter (λ y, p y = true) new) = foldl step (V, O) os.
  Proof.
    intros HosU Hn. induction os as [|r os IH]; intros Hp V O Hclosed; [exists []; cbn; by rewrite app_nil_r|].
    cbn [foldl]. destruct (decide (r ∈ V)) as [Hv|Hv].
    { rewrite (dfs_skip r (V, O)) by done. apply IH; [intros; apply HosU; by right|intros; apply Hp; by right|done]. }
    assert (size (U ∖ V) < S n) as HnV by (eapply Nat.le_lt_trans; [|exact Hn]; apply subseteq_size; intros y; rewrite elem_of_difference; by intros [? _]).
    destruct (dfs_spec kids U HU (S n) r V O) as [(new & N1 & N2 & N3 & N4 & N5 & N6 & _ & _) Hhead]; [apply HosU; by left|done|]. destruct (Hhead Hv) as (tl & Htl). clear Hhead.
    destruct (dfs (S n) kids r (V, O)) as [V1 O1] eqn:Ed. cbn [fst snd] in *. subst O1. apply app_inv_head in Htl. subst new.
    destruct IH with (V := V1) (O := O ++ r :: tl) as (new2 & M1 & M2); [intros; apply HosU; by right|intros; apply Hp; by right| |].
    { intros x Hx y Hy. apply N3 in Hx as [Hx|Hx]; [apply N3; left; by apply (Hclosed x)|by apply (N6 x)]. }
    exists ((r :: tl) ++ new2). split; [by rewrite M1, <- app_assoc|]. rewrite filter_app, foldl_app. rewrite filter_cons_True by (apply Hp; by left). cbn [foldl]. rewrite Ed.
    rewrite (steps_skip (filter (λ y, p y = true) tl)); [done|]. intros x Hx. apply elem_of_list_filter in Hx as [_ Hx]. apply N3. right. by right.
  Qed.
End twice.
Lemma is_main_spec n : is_main n = true ↔ main_node n.
Proof. apply bool_decide_eq_true. Qed.
Definition least_depth (ns : list dnode) : nat := match n_depth <$> ns with [] => 0 | d :: ds => foldr Nat.min d ds end.
Definition from_here (es : list dedge) (ns : list dnode) (n : dnode) : bool := if existsb (tree_root es) ns then tree_root es n else bool_decide (n_depth n = least_depth ns).
Lemma few_main (P : dnode → bool) ns : NoDup ns → (∀ n m, n ∈ ns → m ∈ ns → is_main n = true → is_main m = true → n = m) → 
  filter (λ n, P n = true ∧ is_main n = true) ns = [] ∨ ∃ m, filter (λ n, P n = true ∧ is_main n = true) ns = [m].
Proof.
  intros Hnd Hone. destruct (filter (λ n, P n = true ∧ is_main n = true) ns) as [|a [|b l]] eqn:E; [by left|right; by exists a|]. exfalso.
  assert (NoDup (a :: b :: l)) as Hn by (rewrite <- E; by apply NoDup_filter). assert (∀ x, x ∈ a :: b :: l → x ∈ ns ∧ is_main x = true) as Hx. { intros x Hx. rewrite <- E in Hx. apply elem_of_list_filter in Hx as [[_ ?] ?]. done. }
  apply NoDup_cons in Hn as [Hn _]. apply Hn. destruct (Hx a) as [? ?]; [by left|]. destruct (Hx b) as [? ?]; [right; by left|]. rewrite (Hone a b) by done. by left.
Qed.
Lemma tree_roots_eq es ns : NoDup ns → (∀ n m, n ∈ ns → m ∈ ns → is_main n = true → is_main m = true → n = m) →
  tree_roots es ns = (n_id <$> filter (λ n, from_here es ns n = true ∧ is_main n = true) ns) ++ (n_id <$> filter (λ n, from_here es ns n = true ∧ is_main n = false) ns).
Proof.
  intros Hnd Hone. unfold tree_roots, from_here. fold (least_depth ns). destruct (existsb (tree_root es) ns) eqn:Ex.
  - destruct (few_main (tree_root es) ns Hnd Hone) as [E|[m E]]; rewrite !E; cbn [last fmap list_fmap app]; [|done].
    destruct (n_id <$> filter (λ n, tree_root es n = true ∧ is_main n = false) ns) as [|o os] eqn:Eo; [|done]. exfalso. apply fmap_nil_inv in Eo. apply existsb_elem in Ex as (n & Hn & Hr).
    apply (not_elem_of_nil n). destruct (is_main n) eqn:Em; [rewrite <- E|rewrite <- Eo]; by apply elem_of_list_filter.
  - assert (∀ b, filter (λ n, tree_root es n = true ∧ is_main n = b) ns = []) as Hno.
    { intros b. apply elem_of_nil_inv. intros n Hn. apply elem_of_list_filter in Hn as [[Hr _] Hn]. assert (existsb (tree_root es) ns = true); [|congruence]. apply existsb_elem. by exists n. }
    rewrite !Hno. cbn [last fmap list_fmap]. 
    assert (∀ b, filter (λ n, bool_decide (n_depth n = least_depth ns) = true ∧ is_main n = b) ns = filter (λ n, is_main n = b) (filter (λ n, n_depth n = least_depth ns) ns)) as Hb.
    { intros b. rewrite list_filter_filter. apply list_filter_iff. intros n. rewrite bool_decide_eq_true. clear. tauto. }
    rewrite !Hb. clear Hb.
    set (l := filter (λ n, n_depth n = least_depth ns) ns). assert (NoDup l) as Hl by (by apply NoDup_filter). assert (∀ n m, n ∈ l → m ∈ l → is_main n = true → is_main m = true → n = m) as Hl1.
    { intros a b Ha Hb. apply elem_of_list_filter in Ha as [_ Ha]. apply elem_of_list_filter in Hb as [_ Hb]. by apply Hone. }
    clearbody l. clear -Hl Hl1.
    assert (∀ acc : list string, foldl (λ acc n, if is_main n then n_id n :: acc else acc ++ [n_id n]) acc l = (n_id <$> filter (λ n, is_main n = true) l) ++ acc ++ (n_id <$> filter (λ n, is_main n = false) l)) as H; [|by rewrite H].
    induction l as [|n l IH]; intros acc; [cbn; by rewrite app_nil_r|]. apply NoDup_cons in Hl as [Hn Hl]. cbn [foldl]. rewrite IH; [|done|intros a b Ha Hb; apply Hl1; by right]. destruct (is_main n) eqn:Em.
    + rewrite filter_cons_True by done. rewrite (filter_cons_False (λ n, is_main n = false)) by (by rewrite Em). assert (filter (λ n, is_main n = true) l = []) as ->; [|done].
      apply elem_of_nil_inv. intros m Hm. apply elem_of_list_filter in Hm as [Hm Hin]. apply Hn. rewrite (Hl1 n m); [done|by left|by right|done|done].
    + rewrite (filter_cons_False (λ n, is_main n = true)) by (by rewrite Em). rewrite (filter_cons_True (λ n, is_main n = false)) by done. cbn [fmap list_fmap]. by rewrite <- !app_assoc.
Qed.

Lemma few_perm {A} (l k : list A) : l ≡ₚ k → (l = [] ∨ ∃ x, l = [x]) → l = k.
Proof. intros H [-> | [x ->]]; [by apply Permutation_nil_l in H|by apply Permutation_singleton_l in H]. Qed.
Lemma least_perm ns ns' : ns ≡ₚ ns' → least_depth ns = least_depth ns'.
Proof.
  assert (∀ (l : list nat) d x, x ∈ d :: l → foldr Nat.min d l ≤ x) as Hle.
  { induction l as [|y l IH]; intros d x Hx; cbn [foldr]; [apply elem_of_list_singleton in Hx; lia|]. apply elem_of_cons in Hx as [-> | Hx]; [specialize (IH d d); assert (foldr Nat.min d l ≤ d) by (apply IH; by left); lia|]. apply elem_of_cons in Hx as [-> | Hx]; [lia|]. specialize (IH d x). assert (foldr Nat.min d l ≤ x) by (apply IH; by right). lia. }
  assert (∀ (l : list nat) d, foldr Nat.min d l ∈ d :: l) as Hin.
  { induction l as [|y l IH]; intros d; cbn [foldr]; [by left|]. destruct (Nat.min_spec y (foldr Nat.min d l)) as [[_ ->]|[_ ->]]; [right; by left|]. specialize (IH d). apply elem_of_cons in IH as [-> | IH]; [by left|right; by right]. }
  intros H. unfold least_depth. assert (n_depth <$> ns ≡ₚ n_depth <$> ns') as Hp by (by apply fmap_Permutation). destruct (n_depth <$> ns) as [|d l] eqn:E1, (n_depth <$> ns') as [|d' l'] eqn:E2.
  - done.
  - by apply Permutation_nil_l in Hp.
  - symmetry in Hp. by apply Permutation_nil_l in Hp.
  - apply Nat.le_antisymm; apply Hle; [rewrite Hp|rewrite <- Hp]; apply Hin.
Qed.
Lemma from_here_perm es ns ns' n : ns ≡ₚ ns' → from_here es ns n = from_here es ns' n.
Proof.
  intros H. unfold from_here. rewrite (least_perm ns ns' H). assert (existsb (tree_root es) ns = existsb (tree_root es) ns') as ->; [|done].
  apply eq_true_iff_eq. rewrite !existsb_elem. split; intros (x & Hx & Hr); exists x; (split; [|done]); [by rewrite <- H|by rewrite H].
Qed.
Lemma filter_omap_ids ns (P : dnode → bool) (l : list string) : n_id <$> filter (λ n, P n = true) (omap (node_at ns) l) = filter (λ y, match node_at ns y with Some n => P n | None => false end = true) l.
Proof.
  induction l as [|y l IH]; [done|]. change (omap (node_at ns) (y :: l)) with (match node_at ns y with Some n => n :: omap (node_at ns) l | None => omap (node_at ns) l end). destruct (node_at ns y) as [n|] eqn:E.
  - destruct (P n) eqn:EP.
    + rewrite filter_cons_True by done. rewrite (filter_cons_True (λ y, match node_at ns y with Some n => P n | None => false end = true)) by (by rewrite E). cbn [fmap list_fmap]. rewrite IH. f_equal. by apply node_at_spec in E as [_ ?].
    + rewrite filter_cons_False by (by rewrite EP). rewrite (filter_cons_False (λ y, match node_at ns y with Some n => P n | None => false end = true)) by (by rewrite E, EP). done.
  - rewrite (filter_cons_False (λ y, match node_at ns y with Some n => P n | None => false end = true)) by (by rewrite E). done.
Qed.
Lemma node_at_perm ns ns' y : NoDup (n_id <$> ns) → ns ≡ₚ ns' → node_at ns y = node_at ns' y.
Proof.
  intros Hu Hp. assert (NoDup (n_id <$> ns')) as Hu' by (by rewrite <- Hp). destruct (node_at ns y) as [n|] eqn:E.
  - apply node_at_spec in E as [Hn <-]. symmetry. apply node_at_unique; [done|]. by rewrite <- Hp.
  - symmetry. apply node_at_none. intros n Hn. apply (proj1 (node_at_none ns y) E). by rewrite Hp.
Qed.
Lemma omap_same {A B} (f g : A → option B) (l : list A) : (∀ x, f x = g x) → omap f l = omap g l.
Proof. intros H. induction l as [|x l IH]; [done|]. cbn. rewrite H. by destruct (g x); [f_equal|]. Qed.
Lemma filter_kept {A} (P : A → Prop) `{∀ x, Decision (P x)} (T l k : list A) : T = l ++ filter P k → (∀ n, n ∈ l → ¬ P n) → filter P T = filter P k.
Proof.
  intros -> Hl. rewrite filter_app. assert (filter P l = []) as ->; [|rewrite app_nil_l, list_filter_filter; apply list_filter_iff; intros n; clear; tauto].
  apply elem_of_nil_inv. intros n Hn. apply elem_of_list_filter in Hn as [Hn Hin]. by apply (Hl n).
Qed.
Lemma tree_order_twice all_edges data : unique_ids data → one_main data → tree_order all_edges (DData (tree_order all_edges data) (d_edges data)) = tree_order all_edges data.
Proof.
  intros Hu Hone'. pose proof (tree_order_perm all_edges data Hu) as Hperm. assert (∀ n m, n ∈ d_nodes data → m ∈ d_nodes data → is_main n = true → is_main m = true → n = m) as Hone by (intros n m Hn Hm ?%is_main_spec ?%is_main_spec; by apply Hone'). set (es := shown_edges all_edges data). set (ns := d_nodes data) in *. set (T := tree_order all_edges data) in *.
  assert (NoDup ns) as Hns by (by eapply NoDup_fmap_1). assert (NoDup T) as HT by (by rewrite Hperm).
  assert (∀ n m, n ∈ T → m ∈ T → is_main n = true → is_main m = true → n = m) as HoneT. { intros n m Hn Hm. rewrite Hperm in Hn, Hm. by apply Hone. }
  set (N := length ns + length es). set (step := λ (st : gset string * list string) (r : string), dfs (S N) (kids_of es) r st).
  assert (∀ data', length (d_nodes data') = length ns → d_edges data' = d_edges data → tree_order all_edges data' = let st := foldl step (∅, []) (tree_roots es (d_nodes data')) in omap (node_at (d_nodes data')) st.2 ++ filter (λ n, n_id n ∉ st.1) (d_nodes data')) as Ht.
  { intros data' Hlen Hed. unfold tree_order. rewrite Hlen, Hed. change (if all_edges then d_edges data else filter (λ e, e_type e = "calls") (d_edges data)) with es. change (λ x, e_dst <$> filter (λ e, e_src e = x) es) with (kids_of es). unfold step, N. by destruct (foldl _ _ (tree_roots es (d_nodes data'))). }
  pose proof (Ht data eq_refl eq_refl) as HtT. fold T in HtT. cbv zeta in HtT. rewrite Ht by first [done | cbn [d_nodes]; by rewrite Hperm]. cbn [d_nodes]. cbv zeta. fold ns in HtT.
  set (U := list_to_set ((n_id <$> ns) ++ (e_dst <$> es)) : gset string).
  assert (∀ x y, x ∈ U → y ∈ kids_of es x → y ∈ U) as HU.
  { intros x y _ Hy. apply elem_of_list_to_set, elem_of_app. right. apply elem_of_list_fmap in Hy as (e & -> & He). apply elem_of_list_filter in He as [_ He]. apply elem_of_list_fmap. by exists e. }
  assert (size U < S N) as Hsz. { unfold U, N. pose proof (size_list_to_set_le ((n_id <$> ns) ++ (e_dst <$> es))) as H. rewrite app_length, !fmap_length in H. lia. }
  assert (foldl step (∅, []) (tree_roots es T) = foldl step (∅, []) (tree_roots es ns)) as Hst.
  2:{ rewrite Hst. etransitivity; [|symmetry; exact HtT]. rewrite (omap_same (node_at T) (node_at ns)) by (intros y; symmetry; apply node_at_perm; [done|by symmetry]). f_equal.
      - eapply filter_kept; [exact HtT|]. intros n Hn Hv.
        apply elem_of_list_omap in Hn as (y & Hy & Hn). apply node_at_spec in Hn as [_ Hn]. apply Hv. rewrite Hn. clear -Hy HU Hsz Hns.
        destruct (dfs_roots (kids_of es) U HU (S N) (tree_roots es ns)) with (V := ∅ : gset string) (O := [] : list string) as (segs & S1 & S2 & S3 & S4 & S5).
        { intros r Hr. apply elem_of_list_to_set, elem_of_app. left. by eapply tree_roots_in. } { done. } { by intros x ?%elem_of_empty. }
        apply S4. right. unfold step in Hy. rewrite S2 in Hy. done. }
  rewrite !tree_roots_eq by done.
  assert (∀ b, filter (λ n, from_here es T n = true ∧ is_main n = b) T = filter (λ n, from_here es ns n = true ∧ is_main n = b) T) as Hfh.
  { intros b. apply list_filter_iff. intros n. by rewrite (from_here_perm es T ns n Hperm). }
  rewrite !Hfh. clear Hfh.
  assert (filter (λ n, from_here es ns n = true ∧ is_main n = true) T = filter (λ n, from_here es ns n = true ∧ is_main n = true) ns) as ->.
  { apply few_perm; [by apply filter_Permutation|]. by apply few_main. }
  set (ms := n_id <$> filter (λ n, from_here es ns n = true ∧ is_main n = true) ns). set (os := n_id <$> filter (λ n, from_here es ns n = true ∧ is_main n = false) ns).
  rewrite !foldl_app.
  assert (tree_roots es ns = ms ++ os) as Hroots by (by apply tree_roots_eq).
  assert (∀ r, r ∈ ms ++ os → r ∈ U) as HrU. { intros r Hr. apply elem_of_list_to_set, elem_of_app. left. rewrite <- Hroots in Hr. by eapply tree_roots_in. }
  destruct (dfs_roots (kids_of es) U HU (S N) ms) with (V := ∅ : gset string) (O := [] : list string) as (segs & S1 & S2 & S3 & S4 & S5).
  { intros r Hr. apply HrU, elem_of_app. by left. } { done. } { by intros x ?%elem_of_empty. }
  fold step in S2, S4.
  (* the state after the main root *)
  assert (∀ x, x ∈ (foldl step (∅, []) ms).1 → ∀ y, y ∈ kids_of es x → y ∈ (foldl step (∅, []) ms).1) as Hcl.
  { intros x Hx y Hy. apply S4 in Hx as [?%elem_of_empty|Hx]; [done|]. apply S4. right. apply elem_of_list_join in Hx as (seg & Hx & Hseg). apply elem_of_list_lookup in Hseg as [i Hi].
    assert (is_Some (ms !! i)) as [r Hr]. { apply lookup_lt_is_Some. rewrite <- S1. by eapply lookup_lt_Some. }
    assert (length ms ≤ 1) as Hlen. { unfold ms. rewrite fmap_length. destruct (few_main (from_here es ns) ns Hns Hone) as [E|[m E]]; rewrite E; cbn; lia. }
    assert (i = 0) as -> by (apply lookup_lt_Some in Hr; lia). destruct (S5 0 r seg Hr Hi) as [H1 _]. apply elem_of_list_join. exists seg. split; [|by eapply elem_of_list_lookup_2]. apply H1 in Hx as (Hr1 & _ & _). apply H1. split; [by eapply rtc_r|]. split; [apply not_elem_of_empty|]. intros; lia. }
  set (p := λ y, match node_at ns y with Some n => from_here es ns n && negb (is_main n) | None => false end).
  destruct (foldl step (∅, []) ms) as [V O] eqn:Em. cbn [fst snd] in *.
  destruct (steps_again (kids_of es) N p U HU os) with (V := V) (O := O) as (new & M1 & M2).
  { intros r Hr. apply HrU, elem_of_app. by right. } { done. }
  { intros r Hr. apply elem_of_list_fmap in Hr as (n & -> & Hn). apply elem_of_list_filter in Hn as [[Hf Hm] Hn]. unfold p. rewrite node_at_unique by done. by rewrite Hf, Hm. }
  { done. }
  fold step in M1, M2. rewrite <- M2.
  assert (∀ l : list dnode, filter (λ n, from_here es ns n = true ∧ is_main n = false) l = filter (λ n, from_here es ns n && negb (is_main n) = true) l) as Hb.
  { intros l. apply list_filter_iff. intros n. rewrite andb_true_iff, negb_true_iff. done. }
  assert (n_id <$> filter (λ n, from_here es ns n = true ∧ is_main n = false) T = filter (λ y, p y = true) O ++ filter (λ y, p y = true) new) as ->.
  { rewrite Hb, HtT, Hroots, foldl_app, Em, M1. rewrite omap_app, !filter_app, !fmap_app, !filter_omap_ids. fold p. match goal with |- _ ++ (n_id <$> ?l) = _ => assert (l = []) as ->; [|cbn [fmap list_fmap]; by rewrite app_nil_r] end.
    apply elem_of_nil_inv. intros n Hn. rewrite list_filter_filter in Hn. apply elem_of_list_filter in Hn as [[Hc Hv] Hn]. apply Hv. 
    destruct (dfs_roots (kids_of es) U HU (S N) os) with (V := V) (O := O) as (segs' & _ & Q2 & _ & Q4 & Q5); [intros r Hr; apply HrU, elem_of_app; by right|done|done|].
    fold step in Q2, Q4.
    assert (n_id n ∈ os) as Hos. { apply elem_of_list_fmap. exists n. split; [done|]. rewrite Hb. by apply elem_of_list_filter. }
    clear -Hos HU Hsz HrU Hcl. revert V O Hcl. 
    assert (∀ os, (∀ r, r ∈ os → r ∈ U) → n_id n ∈ os → ∀ V O, n_id n ∈ (foldl step (V, O) os).1) as H; [|intros V O _; apply H; [intros r Hr; apply HrU, elem_of_app; by right|done]].
    clear Hos HrU os. assert (∀ os, (∀ r, r ∈ os → r ∈ U) → ∀ V O x, x ∈ V → x ∈ (foldl step (V, O) os).1) as Hmono.
    { induction os as [|r os IH]; intros Hr V O x Hx; [done|]. cbn [foldl]. destruct (dfs_spec (kids_of es) U HU (S N) r V O) as [(nw & _ & _ & N3 & _) _]; [apply Hr; by left|eapply Nat.le_lt_trans; [|exact Hsz]; apply subseteq_size; intros y; rewrite elem_of_difference; by intros [? _]|].
      unfold step at 2. destruct (dfs (S N) (kids_of es) r (V, O)) as [V1 O1]. cbn [fst] in N3. apply IH; [intros; apply Hr; by right|]. apply N3. by left. }
    induction os as [|r os IH]; intros Hr Hin V O; [by apply elem_of_nil in Hin|]. cbn [foldl].
    destruct (dfs_spec (kids_of es) U HU (S N) r V O) as [(nw & _ & _ & N3 & _ & N5 & _) _]; [apply Hr; by left|eapply Nat.le_lt_trans; [|exact Hsz]; apply subseteq_size; intros y; rewrite elem_of_difference; by intros [? _]|].
    unfold step at 2. destruct (dfs (S N) (kids_of es) r (V, O)) as [V1 O1]. cbn [fst] in *. apply elem_of_cons in Hin as [Hin|Hin].
    - apply Hmono; [intros; apply Hr; by right|]. apply N5. rewrite Hin. by left.
    - apply IH; [intros; apply Hr; by right|done]. }
  rewrite foldl_app. f_equal. apply steps_skip. cbn [fst]. intros x Hx. apply elem_of_list_filter in Hx as [_ Hx]. apply S4. right. rewrite S2 in Hx. done.
Qed.

Lemma page_of_reordered iter data r : unique_ids data → one_main data → page_of iter false (DData (tree_order true data) (d_edges data)) r = page_of iter false data r.
Proof. intros Hu Ho. unfold page_of. cbn [d_edges]. by rewrite tree_order_twice. Qed.
Lemma tree_root_spec es n : tree_root es n = true ↔ tree_start es n.
Proof.
  unfold tree_root, tree_start. rewrite bool_decide_eq_true. apply or_iff_compat_r. split.
  - intros H x (e & He & _ & Hd). apply H. apply elem_of_list_fmap. by exists e.
  - intros H Hin. apply elem_of_list_fmap in Hin as (e & Hd & He). apply (H (e_src e)). by exists e.
Qed.
(** The roots of a tree: some start, the main one first, and all others after it. *)
Lemma tree_roots_spec es ns : (∃ n, n ∈ ns ∧ tree_start es n) →
  (∀ r, r ∈ tree_roots es ns → ∃ n, n ∈ ns ∧ n_id n = r ∧ tree_start es n)
  ∧ (∀ n, n ∈ ns → tree_start es n → ¬ main_node n → n_id n ∈ tree_roots es ns)
  ∧ ((∃ n, n ∈ ns ∧ tree_start es n ∧ main_node n) → ∃ n rest, tree_roots es ns = n_id n :: rest ∧ n ∈ ns ∧ tree_start es n ∧ main_node n).
Proof.
  intros (n0 & Hn0 & Hs0). unfold tree_roots. set (mains := filter (λ n, tree_root es n = true ∧ is_main n = true) ns). set (others := n_id <$> filter (λ n, tree_root es n = true ∧ is_main n = false) ns).
  assert (∀ r, r ∈ others → ∃ n, n ∈ ns ∧ n_id n = r ∧ tree_start es n) as Ho1. { intros r Hr. apply elem_of_list_fmap in Hr as (n & -> & Hn). apply elem_of_list_filter in Hn as [[Hr _] Hn]. exists n. split; [done|]. split; [done|]. by apply tree_root_spec. }
  assert (∀ n, n ∈ ns → tree_start es n → ¬ main_node n → n_id n ∈ others) as Ho2. { intros n Hn Hs Hm. apply elem_of_list_fmap. exists n. split; [done|]. apply elem_of_list_filter. split; [|done]. split; [by apply tree_root_spec|]. destruct (is_main n) eqn:E; [by apply is_main_spec in E|done]. }
  destruct (last mains) as [m|] eqn:Em.
  - assert (m ∈ mains) as Hm by (rewrite last_lookup in Em; by eapply elem_of_list_lookup_2). apply elem_of_list_filter in Hm as [[Hr Hmm] Hm]. apply tree_root_spec in Hr. apply is_main_spec in Hmm.
    split; [|split].
    + intros r Hr'. apply elem_of_cons in Hr' as [-> | Hr']; [by exists m|by apply Ho1].
    + intros n Hn Hs Hnm. right. by apply Ho2.
    + intros _. by exists m, others.
  - apply last_None in Em. assert (n_id n0 ∈ others) as H0. { apply Ho2; [done|done|]. intros Hm. apply (not_elem_of_nil n0). rewrite <- Em. apply elem_of_list_filter. split; [|done]. split; [by apply tree_root_spec|by apply is_main_spec]. }
    destruct others as [|o os]; [by apply elem_of_nil in H0|]. split; [done|]. split; [done|]. intros (n & Hn & Hs & Hm). exfalso. apply (not_elem_of_nil n). rewrite <- Em. apply elem_of_list_filter. split; [|done]. split; [by apply tree_root_spec|by apply is_main_spec].
Qed.
