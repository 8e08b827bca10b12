(** * Proofs about implementations of interfaces. *)
From Coq Require Import Ascii.
From stdpp Require Import sorting.
From stdpp Require Import base list strings gmap.
From Verif Require Import StrLib StrSub StrOrder StrSplit PairModel PairProofs ImplModel.

(** ** Reading and writing types *)
Lemma get_alter f x y pr : get_type (alter_type f x pr) y = if decide (x = y) then f <$> get_type pr y else get_type pr y.
Proof.
  destruct x as [p n], y as [q m]. unfold get_type, alter_type. cbn [fst snd]. destruct (decide (p = q)) as [->|Hp].
  - rewrite lookup_alter. destruct (pr !! q) as [ts|]; cbn [fmap option_fmap option_map mbind option_bind]; [|by destruct (decide _)].
    destruct (decide (n = m)) as [->|Hn].
    + rewrite lookup_alter. by rewrite decide_True.
    + rewrite lookup_alter_ne by done. rewrite decide_False; [done|]. congruence.
  - rewrite lookup_alter_ne by done. rewrite decide_False; [done|]. congruence.
Qed.
Lemma elem_of_keys {A} (m : gmap string A) k : k ∈ ssort (map_to_list m).*1 ↔ is_Some (m !! k).
Proof.
  rewrite elem_of_ssort, elem_of_list_fmap. split.
  - intros ((k' & v) & -> & H). exists v. by apply elem_of_map_to_list.
  - intros [v H]. exists (k, v). split; [done|]. by apply elem_of_map_to_list.
Qed.
Lemma all_types_elem pr x : x ∈ all_types pr ↔ is_Some (get_type pr x).
Proof.
  destruct x as [p n]. unfold all_types, get_type. rewrite elem_of_list_join. cbn [fst snd]. split.
  - intros (l & Hx & Hl). apply elem_of_list_fmap in Hl as (q & -> & Hq). apply elem_of_list_fmap in Hx as (m & Hm & Hin). injection Hm as -> ->.
    apply elem_of_keys in Hin. destruct (pr !! q); [done|]. cbn [default] in Hin. rewrite lookup_empty in Hin. by destruct Hin.
  - intros [t H]. destruct (pr !! p) as [ts|] eqn:E; [|done]. cbn [mbind option_bind] in H. exists (pair p <$> ssort (map_to_list ts).*1). split.
    + apply elem_of_list_fmap. exists n. split; [done|]. apply elem_of_keys. eauto.
    + apply elem_of_list_fmap. exists p. rewrite E. split; [done|]. apply elem_of_keys. eauto.
Qed.
Definition pair_le (x y : string * string) : Prop := x.1 ≠ y.1 ∧ string_le x.1 y.1 ∨ x.1 = y.1 ∧ string_le x.2 y.2.
Lemma NoDup_keys {A} (m : gmap string A) : NoDup (ssort (map_to_list m).*1).
Proof. apply NoDup_ssort, NoDup_fst_map_to_list. Qed.
Lemma all_types_sorted pr : StronglySorted pair_le (all_types pr) ∧ NoDup (all_types pr).
Proof.
  unfold all_types. assert (∀ l, StronglySorted string_le l → NoDup l →
    StronglySorted pair_le (mjoin ((λ p, pair p <$> ssort (map_to_list (default ∅ (pr !! p))).*1) <$> l)) ∧ NoDup (mjoin ((λ p, pair p <$> ssort (map_to_list (default ∅ (pr !! p))).*1) <$> l))) as H.
  { induction l as [|p l IH]; intros Hs Hn; [split; constructor|]. apply StronglySorted_inv in Hs as [Hs Hf]. apply NoDup_cons in Hn as [Hp Hn]. destruct (IH Hs Hn) as [IH1 IH2].
    cbn [fmap list_fmap mjoin list_join].
    assert (∀ x, x ∈ mjoin ((λ p, pair p <$> ssort (map_to_list (default ∅ (pr !! p))).*1) <$> l) → x.1 ∈ l) as Hin.
    { intros x. rewrite elem_of_list_join. intros (ys & Hx & Hy). apply elem_of_list_fmap in Hy as (q & -> & Hq). by apply elem_of_list_fmap in Hx as (m & -> & _). }
    split.
    - generalize (ssort_sorted (map_to_list (default ∅ (pr !! p))).*1). generalize (ssort (map_to_list (default ∅ (pr !! p))).*1) as ns.
      induction ns as [|n ns IHn]; intros Hns; [done|]. apply StronglySorted_inv in Hns as [Hns Hfn]. cbn [fmap list_fmap app]. constructor; [by apply IHn|].
      apply Forall_forall. intros x. rewrite elem_of_app. intros [Hx|Hx].
      + apply elem_of_list_fmap in Hx as (m & -> & Hm). right. split; [done|]. rewrite Forall_forall in Hfn. by apply Hfn.
      + apply Hin in Hx. left. cbn [fst]. split; [by intros ->|]. rewrite Forall_forall in Hf. by apply Hf.
    - apply NoDup_app. split; [|split; [|done]].
      + apply NoDup_fmap_2; [|apply NoDup_keys]. by intros ? ? [= ->].
      + intros x Hx Hx'. apply Hin in Hx'. by apply elem_of_list_fmap in Hx as (m & -> & _). }
  apply H; [apply ssort_sorted|apply NoDup_keys].
Qed.

(** ** The analysis as one list of links *)
Section links.
  Context (pr : iproject).
  Definition link (s i : string * string) : bool :=
    match get_type pr s, get_type pr i with
    | Some t, Some u => bool_decide (it_kind t = "struct") && (bool_decide (it_kind u = "interface") && implements_interface (method_table (it_methods t)) u)
    | _, _ => false
    end.
  Definition out_of (x : string * string) (e : (string * string) * (string * string)) : option string := if decide (e.1 = x) then if link e.1 e.2 then Some (type_key e.2) else None else None.
  Definition into (x : string * string) (e : (string * string) * (string * string)) : option string := if decide (e.2 = x) then if link e.1 e.2 then Some (type_key e.1) else None else None.
  Definition upd (L : list ((string * string) * (string * string))) (x : string * string) (t : itype) : itype :=
    IType (it_kind t) (it_methods t) (it_implements t ++ omap (out_of x) L) (it_implemented_by t ++ omap (into x) L).
  Definition inv (L : list ((string * string) * (string * string))) (st : iproject) : Prop := ∀ x, get_type st x = upd L x <$> get_type pr x.
  Lemma inv_interface L st s t i : inv L st → get_type pr s = Some t → it_kind t = "struct" → inv (L ++ [(s, i)]) (visit_interface (method_table (it_methods t)) s st i).
  Proof.
    intros Hi Hs Hk x. unfold visit_interface. rewrite (Hi i).
    assert (∀ x, upd (L ++ [(s, i)]) x <$> get_type pr x =
      (if link s i then (λ t, (if decide (i = x) then add_implemented_by (type_key s) else id) ((if decide (s = x) then add_implements (type_key i) else id) t)) else id) <$> (upd L x <$> get_type pr x)) as Hu.
    { clear x. intros x. rewrite <- option_fmap_compose. destruct (get_type pr x) as [v|]; [|done]. cbn [fmap option_fmap option_map]. f_equal. unfold compose, upd. rewrite !omap_app.
      cbn [omap list_omap]. unfold out_of at 2, into at 2. cbn [fst snd]. destruct (link s i); [|by destruct (decide (s = x)), (decide (i = x)); cbn; rewrite !app_nil_r].
      destruct (decide (s = x)), (decide (i = x)); cbn; rewrite ?app_nil_r, ?app_assoc; done. }
    rewrite Hu. clear Hu. unfold link. rewrite Hs. rewrite (bool_decide_eq_true_2 _ Hk). cbn [andb].
    destruct (get_type pr i) as [u|] eqn:Eu; cbn [fmap option_fmap option_map]; [|rewrite (Hi x); by destruct (get_type pr x)].
    assert (implements_interface (method_table (it_methods t)) (upd L i u) = implements_interface (method_table (it_methods t)) u) as -> by done.
    change (it_kind (upd L i u)) with (it_kind u).
    destruct (bool_decide (it_kind u = "interface") && implements_interface (method_table (it_methods t)) u); [|rewrite (Hi x); by destruct (get_type pr x)].
    rewrite !get_alter, (Hi x). destruct (get_type pr x) as [v|]; [|by destruct (decide (i = x)), (decide (s = x))].
    by destruct (decide (i = x)), (decide (s = x)).
  Qed.
  Lemma inv_interfaces L st s t l : inv L st → get_type pr s = Some t → it_kind t = "struct" → inv (L ++ (pair s <$> l)) (foldl (visit_interface (method_table (it_methods t)) s) st l).
  Proof.
    revert L st. induction l as [|i l IH]; intros L st Hi Hs Hk; cbn [foldl fmap list_fmap]; [by rewrite app_nil_r|].
    rewrite cons_middle, app_assoc. apply IH; [|done|done]. by apply inv_interface.
  Qed.
  Lemma no_links L x s l : (∀ t, get_type pr s = Some t → it_kind t ≠ "struct") → omap (out_of x) (L ++ (pair s <$> l)) = omap (out_of x) L ∧ omap (into x) (L ++ (pair s <$> l)) = omap (into x) L.
  Proof.
    intros Hn. assert (∀ i, link s i = false) as Hl.
    { intros i. unfold link. destruct (get_type pr s) as [t|] eqn:E; [|done]. rewrite bool_decide_eq_false_2 by (by apply Hn). by destruct (get_type pr i). }
    rewrite !omap_app. split.
    - induction l as [|i l IH]; cbn [fmap list_fmap omap list_omap]; [by rewrite app_nil_r|]. unfold out_of at 2. cbn [fst snd]. rewrite Hl. by destruct (decide (s = x)).
    - induction l as [|i l IH]; cbn [fmap list_fmap omap list_omap]; [by rewrite app_nil_r|]. unfold into at 2. cbn [fst snd]. rewrite Hl. by destruct (decide (i = x)).
  Qed.
  Lemma inv_struct L st s names : inv L st → inv (L ++ (pair s <$> names)) (visit_struct names st s).
  Proof.
    intros Hi. unfold visit_struct. rewrite (Hi s). destruct (get_type pr s) as [t|] eqn:Es; cbn [fmap option_fmap option_map].
    - change (it_kind (upd L s t)) with (it_kind t). change (it_methods (upd L s t)) with (it_methods t).
      destruct (decide (it_kind t = "struct")) as [Hk|Hk]; [by apply inv_interfaces|].
      intros x. rewrite (Hi x). destruct (get_type pr x) as [v|]; [|done]. cbn [fmap option_fmap option_map]. f_equal. unfold upd.
      destruct (no_links L x s names) as [-> ->]; [|done]. intros t' E. rewrite Es in E. injection E as <-. done.
    - intros x. rewrite (Hi x). destruct (get_type pr x) as [v|]; [|done]. cbn [fmap option_fmap option_map]. f_equal. unfold upd.
      destruct (no_links L x s names) as [-> ->]; [|done]. intros t' E. by rewrite Es in E.
  Qed.
  Definition grid (l names : list (string * string)) : list ((string * string) * (string * string)) := mjoin ((λ s, pair s <$> names) <$> l).
  Lemma inv_structs L st names l : inv L st → inv (L ++ grid l names) (foldl (visit_struct names) st l).
  Proof.
    revert L st. induction l as [|s l IH]; intros L st Hi; cbn [foldl]; unfold grid; cbn [fmap list_fmap mjoin list_join]; [by rewrite app_nil_r|].
    rewrite app_assoc. apply IH. by apply inv_struct.
  Qed.
  Lemma analyze_inv : inv (grid (all_types pr) (all_types pr)) (analyze pr).
  Proof.
    apply (inv_structs []). intros x. destruct (get_type pr x) as [[k m a b]|]; [|done]. cbn [fmap option_fmap option_map]. unfold upd. cbn. by rewrite !app_nil_r.
  Qed.
  Lemma grid_out x l names : NoDup l → x ∈ l → omap (out_of x) (grid l names) = type_key <$> filter (λ i, Is_true (link x i)) names.
  Proof.
    assert (∀ s, s ≠ x → omap (out_of x) (pair s <$> names) = []) as Hne.
    { intros s Hs. induction names as [|i names IH]; [done|]. cbn [fmap list_fmap omap list_omap]. unfold out_of at 1. cbn [fst]. by rewrite decide_False. }
    assert (∀ l, x ∉ l → omap (out_of x) (grid l names) = []) as Hnil.
    { clear l. induction l as [|s l IH]; intros Hx; [done|]. apply not_elem_of_cons in Hx as [H1 H2]. unfold grid. cbn [fmap list_fmap mjoin list_join]. rewrite omap_app, Hne by done. by apply IH. }
    induction l as [|s l IH]; intros Hn Hx; [by apply elem_of_nil in Hx|]. apply NoDup_cons in Hn as [Hs Hn]. unfold grid. cbn [fmap list_fmap mjoin list_join]. rewrite omap_app.
    destruct (decide (s = x)) as [->|H].
    - rewrite (Hnil l Hs : omap (out_of x) (mjoin _) = []). rewrite app_nil_r. clear. induction names as [|i names IH]; [done|]. cbn [fmap list_fmap omap list_omap]. unfold out_of at 1. cbn [fst snd].
      rewrite decide_True by done. rewrite filter_cons. destruct (link x i); cbn [Is_true]; [rewrite decide_True by done; cbn [fmap list_fmap]; by f_equal|rewrite decide_False by (by intros []); done].
    - rewrite Hne by done. apply IH; [done|]. by apply elem_of_cons in Hx as [?|?].
  Qed.
  Lemma grid_into x l names : NoDup names → x ∈ names → omap (into x) (grid l names) = type_key <$> filter (λ s, Is_true (link s x)) l.
  Proof.
    intros Hn Hx. assert (∀ s, omap (into x) (pair s <$> names) = if link s x then [type_key s] else []) as Hone.
    { intros s. assert (∀ l, x ∉ l → omap (into x) (pair s <$> l) = []) as Hnil.
      { clear. induction l as [|i l IH]; intros Hx; [done|]. apply not_elem_of_cons in Hx as [H1 H2]. cbn [fmap list_fmap omap list_omap]. unfold into at 1. cbn [snd]. rewrite decide_False by done. by apply IH. }
      induction names as [|i names IH]; [by apply elem_of_nil in Hx|]. apply NoDup_cons in Hn as [Hi Hn].
      change (omap (into x) (pair s <$> i :: names)) with (match into x (s, i) with Some y => y :: omap (into x) (pair s <$> names) | None => omap (into x) (pair s <$> names) end).
      unfold into at 1. cbn [fst snd].
      destruct (decide (i = x)) as [->|H]; [rewrite (Hnil _ Hi); by destruct (link s x)|]. apply IH; [done|]. by apply elem_of_cons in Hx as [?|?]. }
    induction l as [|s l IH]; [done|]. change (grid (s :: l) names) with ((pair s <$> names) ++ grid l names). rewrite omap_app, Hone, filter_cons, IH.
    destruct (link s x); cbn [Is_true]; [rewrite decide_True by done|rewrite decide_False by (by intros [])]; done.
  Qed.
  Lemma analyze_closed x t : get_type pr x = Some t → get_type (analyze pr) x = Some (IType (it_kind t) (it_methods t)
    (it_implements t ++ (type_key <$> filter (λ i, Is_true (link x i)) (all_types pr))) (it_implemented_by t ++ (type_key <$> filter (λ s, Is_true (link s x)) (all_types pr)))).
  Proof.
    intros H. rewrite (analyze_inv x), H. cbn [fmap option_fmap option_map]. f_equal. unfold upd. assert (x ∈ all_types pr) as Hx by (apply all_types_elem; eauto).
    destruct (all_types_sorted pr) as [_ Hn]. by rewrite grid_out, grid_into.
  Qed.
  Lemma analyze_none x : get_type pr x = None → get_type (analyze pr) x = None.
  Proof. intros H. by rewrite (analyze_inv x), H. Qed.
End links.
