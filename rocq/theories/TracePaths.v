(** * Proofs about the paths of a call trace. *)
From stdpp Require Import sorting.
From stdpp Require Import base numbers list strings gmap relations.
From Verif Require Import StrLib StrOrder TraceModel TraceSpec.

Lemma edge_kids adj x y : edge adj x y ↔ y ∈ kids adj x.
Proof.
  unfold edge, kids. split; [intros (l & -> & H); done|]. destruct (adj !! x) as [l|]; [by exists l|]. cbn. intros H. by apply elem_of_nil in H.
Qed.
Lemma tidy_kids adj x : tidy adj → NoDup (kids adj x) ∧ x ∉ kids adj x.
Proof. intros H. unfold kids. destruct (adj !! x) as [l|] eqn:E; [by apply H|]. split; [apply NoDup_nil_2|apply not_elem_of_nil]. Qed.

(** ** All paths *)
Fixpoint all_paths (n : nat) (adj : adjacency) (stack : gset string) (node : string) : list (list string) :=
  match n with
  | 0 => []
  | S n =>
      match filter (λ k, k ∉ stack) (kids adj node) with
      | [] => [[node]]
      | real => (λ p, node :: p) <$> mjoin (all_paths n adj ({[ node ]} ∪ stack) <$> real)
      end
  end.
Lemma take_app_sub {A} n (l1 l2 : list A) : take n (l1 ++ l2) = take n l1 ++ take (n - length l1) l2.
Proof. apply firstn_app. Qed.
Lemma enumerate_all adj cap : tidy adj → ∀ n path node (stack : gset string) out, node ∉ stack →
  enumerate n adj cap path node (stack, out) = (stack, out ++ take (cap - length out) ((λ p, path ++ (short_label <$> p)) <$> all_paths n adj stack node)).
Proof.
  intros Ht. induction n as [|n IH]; intros path node stack out Hn; cbn [enumerate all_paths fst snd].
  { rewrite fmap_nil, take_nil, app_nil_r. done. }
  destruct (decide (cap ≤ length out)) as [Hc|Hc].
  { rewrite bool_decide_eq_true_2 by done. replace (cap - length out) with 0 by lia. by rewrite take_0, app_nil_r. }
  rewrite bool_decide_eq_false_2 by done. destruct (filter _ (kids adj node)) as [|k0 ks0] eqn:Er.
  { cbn [fmap list_fmap]. destruct (cap - length out) eqn:E; [lia|]. cbn [firstn]. by rewrite firstn_nil. }
  rewrite <- Er. set (real := filter (λ k, k ∉ stack) (kids adj node)) in *.
  assert (∀ k, k ∈ real → k ∉ ({[node]} ∪ stack : gset string)) as Hreal.
  { intros k. unfold real. rewrite elem_of_list_filter. intros [H1 H2]. rewrite elem_of_union, elem_of_singleton. intros [-> | ?]; [|done]. by apply (tidy_kids adj node Ht). }
  clearbody real. clear Er k0 ks0.
  assert (∀ out, foldl (λ acc k, if bool_decide (cap ≤ length acc.2) then acc else enumerate n adj cap (path ++ [short_label node]) k acc) ({[node]} ∪ stack, out) real
    = ({[node]} ∪ stack, out ++ take (cap - length out) ((λ p, path ++ (short_label <$> p)) <$> ((λ p, node :: p) <$> mjoin (all_paths n adj ({[node]} ∪ stack) <$> real))))) as ->.
  { clear Hc out. induction real as [|k ks IHk]; intros out; cbn [foldl].
    { cbn. rewrite take_nil, app_nil_r. done. }
    cbn [fst snd]. assert ((if bool_decide (cap ≤ length out) then ({[node]} ∪ stack, out) else enumerate n adj cap (path ++ [short_label node]) k ({[node]} ∪ stack, out))
      = ({[node]} ∪ stack, out ++ take (cap - length out) ((λ p, path ++ (short_label <$> p)) <$> ((λ p, node :: p) <$> all_paths n adj ({[node]} ∪ stack) k)))) as ->.
    { destruct (decide (cap ≤ length out)) as [Hc|Hc].
      - rewrite bool_decide_eq_true_2 by done. replace (cap - length out) with 0 by lia. by rewrite take_0, app_nil_r.
      - rewrite bool_decide_eq_false_2 by done. rewrite IH by (apply Hreal; by left). f_equal. f_equal. f_equal. rewrite <- list_fmap_compose. apply list_fmap_ext. intros _ p _. cbn. by rewrite <- app_assoc. }
    rewrite IHk by (intros k' Hk'; apply Hreal; by right). f_equal. cbn [fmap list_fmap mjoin list_join]. rewrite !fmap_app, take_app_sub, <- !app_assoc. f_equal. f_equal. f_equal.
    rewrite app_length, take_length, !fmap_length. lia. }
  f_equal. apply set_eq. intros x. rewrite elem_of_difference, elem_of_union, elem_of_singleton. split; [intros [[?|?] ?]; done|]. intros Hx. split; [by right|]. intros ->. done.
Qed.

(** Paths that avoid the stack and end where every callee is on the path or the stack. *)
Definition stack_path (adj : adjacency) (stack : gset string) (root : string) (p : list string) : Prop :=
  head p = Some root ∧ (∀ i x y, p !! i = Some x → p !! S i = Some y → edge adj x y) ∧ NoDup p ∧ (∀ x, x ∈ p → x ∉ stack) ∧ ∀ x y, last p = Some x → edge adj x y → y ∈ p ∨ y ∈ stack.
Lemma stack_empty adj root p : stack_path adj ∅ root p ↔ call_path adj root p.
Proof.
  split.
  - intros (H1 & H2 & H3 & _ & H5). split; [done|]. split; [done|]. split; [done|]. intros x y Hx Hy. destruct (H5 x y Hx Hy) as [H|H]; [done|by apply elem_of_empty in H].
  - intros (H1 & H2 & H3 & H4). split; [done|]. split; [done|]. split; [done|]. split; [intros x _; apply not_elem_of_empty|]. intros x y Hx Hy. left. by apply (H4 x).
Qed.
Lemma stack_cons adj stack node p : tidy adj → node ∉ stack →
  stack_path adj stack node p ↔ (filter (λ k, k ∉ stack) (kids adj node) = [] ∧ p = [node]) ∨ (∃ k q, k ∈ filter (λ k, k ∉ stack) (kids adj node) ∧ p = node :: q ∧ stack_path adj ({[ node ]} ∪ stack) k q).
Proof.
  intros Ht Hn. split.
  - intros (H1 & H2 & H3 & H4 & H5). destruct p as [|x q]; [done|]. injection H1 as ->. destruct q as [|k q].
    + left. split; [|done]. apply elem_of_nil_inv. intros k. rewrite elem_of_list_filter. intros [Hk Hin]. destruct (H5 node k) as [Hx|Hx]; [done|by apply edge_kids| |done].
      apply elem_of_list_singleton in Hx as ->. by apply (tidy_kids adj node Ht).
    + right. exists k, (k :: q). apply NoDup_cons in H3 as [N1 N2].
      assert (k ∈ filter (λ k, k ∉ stack) (kids adj node)) as Hk.
      { apply elem_of_list_filter. split; [apply H4; right; by left|]. apply edge_kids. by apply (H2 0). }
      split; [done|]. split; [done|]. split; [done|]. split; [intros i a b Ha Hb; by apply (H2 (S i))|]. split; [done|]. split.
      * intros a Ha. rewrite elem_of_union, elem_of_singleton. intros [-> | Hs]; [done|]. apply (H4 a); [by right|done].
      * intros a b Ha Hb. rewrite elem_of_union, elem_of_singleton. destruct (H5 a b) as [Hx|Hx]; [done|done| |by right; right]. apply elem_of_cons in Hx as [-> | Hx]; [right; by left|by left].
  - intros [[Hf ->]|(k & q & Hk & -> & (H1 & H2 & H3 & H4 & H5))].
    + split; [done|]. split; [by intros [|i] x y|]. split; [apply NoDup_singleton|]. split; [by intros x ->%elem_of_list_singleton|]. intros x y [= <-] Hy. right. apply edge_kids in Hy.
      destruct (decide (y ∈ stack)) as [Hs|Hs]; [done|]. assert (y ∈ filter (λ k, k ∉ stack) (kids adj node)) as Hy' by (by apply elem_of_list_filter). rewrite Hf in Hy'. by apply elem_of_nil in Hy'.
    + apply elem_of_list_filter in Hk as [Hks Hk]. destruct q as [|k' q]; [done|]. injection H1 as ->. split; [done|]. split.
      { intros [|i] x y; cbn; [intros [= <-] [= <-]; by apply edge_kids|by apply (H2 i)]. }
      split. { apply NoDup_cons. split; [|done]. intros Hin. apply (H4 node Hin). rewrite elem_of_union, elem_of_singleton. by left. }
      split. { intros x [-> | Hx]%elem_of_cons; [done|]. intros Hs. apply (H4 x Hx). rewrite elem_of_union. by right. }
      intros x y Hx Hy. destruct (H5 x y) as [Hp|Hp]; [done|done|left; by right|]. rewrite elem_of_union, elem_of_singleton in Hp. destruct Hp as [-> | Hp]; [left; by left|by right].
Qed.
Lemma kids_dom adj node k : k ∈ kids adj node → node ∈ (dom adj : gset string).
Proof. unfold kids. intros H. apply elem_of_dom. destruct (adj !! node); [by eexists|]. cbn in H. by apply elem_of_nil in H. Qed.
Lemma stack_measure (adj : adjacency) stack node k : k ∈ kids adj node → node ∉ stack → size ((dom adj : gset string) ∖ ({[node]} ∪ stack)) < size ((dom adj : gset string) ∖ stack).
Proof.
  intros Hk Hn. apply kids_dom in Hk. apply subset_size. split.
  - intros x. rewrite !elem_of_difference, elem_of_union. intros [? ?]. split; [done|]. auto.
  - intros H. assert (node ∈ (dom adj : gset string) ∖ ({[node]} ∪ stack)) as Hx by (apply H, elem_of_difference; done). apply elem_of_difference in Hx as [_ Hx]. apply Hx. rewrite elem_of_union, elem_of_singleton. by left.
Qed.
Lemma elem_of_all_paths adj : tidy adj → ∀ n (stack : gset string) node, node ∉ stack → size ((dom adj : gset string) ∖ stack) < n → ∀ p, p ∈ all_paths n adj stack node ↔ stack_path adj stack node p.
Proof.
  intros Ht. induction n as [|n IH]; intros stack node Hn Hsz p; [lia|]. rewrite stack_cons by done. cbn [all_paths].
  destruct (filter _ (kids adj node)) as [|k0 ks0] eqn:Er.
  - rewrite elem_of_list_singleton. split; [intros ->; by left|]. intros [[_ ?]|(k & q & Hk & _)]; [done|by apply elem_of_nil in Hk].
  - rewrite <- Er. set (real := filter (λ k, k ∉ stack) (kids adj node)) in *.
    assert (∀ k, k ∈ real → ∀ q, q ∈ all_paths n adj ({[node]} ∪ stack) k ↔ stack_path adj ({[node]} ∪ stack) k q) as Hk.
    { intros k Hk. unfold real in Hk. apply elem_of_list_filter in Hk as [Hk1 Hk2]. apply IH.
      - rewrite elem_of_union, elem_of_singleton. intros [-> | ?]; [|done]. by apply (tidy_kids adj node Ht).
      - pose proof (stack_measure adj stack node k Hk2 Hn). lia. }
    rewrite elem_of_list_fmap. split.
    + intros (q & -> & Hq). right. apply elem_of_list_join in Hq as (l & Hq & Hl). apply elem_of_list_fmap in Hl as (k & -> & Hkr). exists k, q. split; [done|]. split; [done|]. by apply Hk.
    + intros [[E _]|(k & q & Hkr & -> & Hq)]; [rewrite E in Er; done|]. exists q. split; [done|]. apply elem_of_list_join. exists (all_paths n adj ({[node]} ∪ stack) k). split; [by apply Hk|].
      apply elem_of_list_fmap. by exists k.
Qed.
Lemma all_paths_head adj : ∀ n stack node p, p ∈ all_paths n adj stack node → head p = Some node.
Proof.
  intros [|n] stack node p; cbn [all_paths]; [by intros ?%elem_of_nil|]. destruct (filter _ _); [by intros ->%elem_of_list_singleton|]. intros (q & -> & _)%elem_of_list_fmap. done.
Qed.
Lemma all_paths_nodup adj : tidy adj → ∀ n stack node, NoDup (all_paths n adj stack node).
Proof.
  intros Ht. induction n as [|n IH]; intros stack node; cbn [all_paths]; [apply NoDup_nil_2|].
  assert (NoDup (filter (λ k, k ∉ stack) (kids adj node))) as Hnd by (apply NoDup_filter; by apply tidy_kids).
  destruct (filter _ _) as [|k0 ks0]; [apply NoDup_singleton|]. apply NoDup_fmap_2; [by intros a b [= ->]|].
  induction Hnd as [|k ks Hk Hks IHk]; cbn [fmap list_fmap mjoin list_join]; [apply NoDup_nil_2|]. apply NoDup_app. split; [apply IH|]. split; [|done].
  intros p Hp Hq. apply all_paths_head in Hp. apply elem_of_list_join in Hq as (l & Hq & Hl). apply elem_of_list_fmap in Hl as (k' & -> & Hk'). apply all_paths_head in Hq. rewrite Hp in Hq. injection Hq as ->. done.
Qed.
Lemma all_paths_nonempty adj : tidy adj → ∀ n (stack : gset string) node, node ∉ stack → size ((dom adj : gset string) ∖ stack) < n → 0 < length (all_paths n adj stack node).
Proof.
  intros Ht. induction n as [|n IH]; intros stack node Hn Hsz; [lia|]. cbn [all_paths]. destruct (filter _ (kids adj node)) as [|k ks] eqn:Er; [cbn; lia|].
  assert (k ∈ filter (λ k, k ∉ stack) (kids adj node)) as Hk by (rewrite Er; by left). apply elem_of_list_filter in Hk as [Hk1 Hk2].
  cbn [fmap list_fmap mjoin list_join]. rewrite fmap_length, app_length. pose proof (stack_measure adj stack node k Hk2 Hn).
  assert (0 < length (all_paths n adj ({[node]} ∪ stack) k)); [|lia]. apply IH; [|lia]. rewrite elem_of_union, elem_of_singleton. intros [-> | ?]; [|done]. by apply (tidy_kids adj node Ht).
Qed.
Definition paths_of (adj : adjacency) (node : string) : list (list string) := all_paths (S (size adj)) adj ∅ node.
Lemma dom_size (adj : adjacency) : size ((dom adj : gset string) ∖ ∅) < S (size adj).
Proof. rewrite <- size_dom. assert (size ((dom adj : gset string) ∖ ∅) ≤ size (dom adj : gset string)) by (apply subseteq_size; intros x; rewrite elem_of_difference; by intros [? _]). lia. Qed.
Lemma paths_of_spec adj node : tidy adj → lists_paths adj node (paths_of adj node).
Proof.
  intros Ht. split; [by apply all_paths_nodup|]. intros p. rewrite <- stack_empty. apply elem_of_all_paths; [done|apply not_elem_of_empty|apply dom_size].
Qed.
Lemma enumerate_paths_spec adj root cap : tidy adj → enumerate_paths adj root cap = take cap ((λ p : list string, short_label <$> p) <$> paths_of adj root).
Proof.
  intros Ht. unfold enumerate_paths. rewrite enumerate_all by (done || apply not_elem_of_empty). cbn [fst snd length app]. by rewrite Nat.sub_0_r.
Qed.

(** ** Counting *)
Definition num (adj : adjacency) (node : string) : nat := length (paths_of adj node).
Lemma num_pos adj node : tidy adj → 0 < num adj node.
Proof. intros Ht. apply all_paths_nonempty; [done|apply not_elem_of_empty|apply dom_size]. Qed.
Lemma nodup_same_length {A} (l k : list A) : NoDup l → NoDup k → (∀ x, x ∈ l ↔ x ∈ k) → length l = length k.
Proof. intros H1 H2 H. by apply Permutation_length, NoDup_Permutation. Qed.
Lemma path_reach adj p : ∀ root, head p = Some root → (∀ i x y, p !! i = Some x → p !! S i = Some y → edge adj x y) → ∀ x, x ∈ p → rtc (edge adj) root x.
Proof.
  induction p as [|a p IH]; intros root H1 H2 x Hx; [done|]. injection H1 as ->. apply elem_of_cons in Hx as [-> | Hx]; [done|]. destruct p as [|b p]; [by apply elem_of_nil in Hx|].
  eapply rtc_l; [by apply (H2 0)|]. apply IH; [done| |done]. intros i. apply (H2 (S i)).
Qed.
Lemma filter_free (stack : gset string) (l : list string) : (∀ k, k ∈ l → k ∉ stack) → filter (λ k, k ∉ stack) l = l.
Proof. induction l as [|k l IH]; intros Hl; [done|]. rewrite filter_cons_True by (apply Hl; by left). rewrite IH; [done|]. intros k' Hk'. apply Hl. by right. Qed.
Lemma num_acyclic adj node : tidy adj → ¬ tc (edge adj) node node → num adj node = if decide (kids adj node = []) then 1 else sum_list (num adj <$> kids adj node).
Proof.
  intros Ht Hac. unfold num at 1, paths_of. cbn [all_paths].
  rewrite (filter_free ∅) by (intros k _; apply not_elem_of_empty).
  destruct (kids adj node) as [|k0 ks0] eqn:Ek; [by rewrite decide_True|]. rewrite decide_False by done. rewrite <- Ek.
  assert (∀ k, k ∈ kids adj node → length (all_paths (size adj) adj ({[node]} ∪ ∅) k) = num adj k) as Hk.
  { intros k Hk. assert (¬ rtc (edge adj) k node) as Hnr. { intros Hr. apply Hac. eapply tc_rtc_r; [|exact Hr]. apply tc_once. by apply edge_kids. }
    assert (size ((dom adj : gset string) ∖ ({[node]} ∪ ∅)) < size adj) as Hsz. { pose proof (stack_measure adj ∅ node k Hk (not_elem_of_empty _)). pose proof (dom_size adj). lia. }
    assert (k ∉ ({[node]} ∪ ∅ : gset string)) as Hkn. { rewrite elem_of_union, elem_of_singleton. intros [-> | H]; [by apply Hnr|by apply elem_of_empty in H]. }
    apply nodup_same_length; [by apply all_paths_nodup..|]. intros p. rewrite elem_of_all_paths by done. unfold paths_of. rewrite elem_of_all_paths; [|done|apply not_elem_of_empty|apply dom_size].
    split; intros (H1 & H2 & H3 & H4 & H5).
    - split; [done|]. split; [done|]. split; [done|]. split; [intros ? _; apply not_elem_of_empty|]. intros x y Hx Hy. destruct (H5 x y Hx Hy) as [H|H]; [by left|]. exfalso. rewrite elem_of_union, elem_of_singleton in H. destruct H as [-> | H]; [|by apply elem_of_empty in H].
      apply Hnr. eapply rtc_r; [|exact Hy]. eapply path_reach; [done|done|]. apply last_Some_elem_of in Hx. done.
    - split; [done|]. split; [done|]. split; [done|]. split.
      + intros x Hx. rewrite elem_of_union, elem_of_singleton. intros [-> | H]; [|by apply elem_of_empty in H]. apply Hnr. by eapply path_reach.
      + intros x y Hx Hy. destruct (H5 x y Hx Hy) as [H|H]; [by left|by apply elem_of_empty in H]. }
  change (list_fmap _ _ ?f ?l) with (f <$> l). rewrite fmap_length.
  assert (∀ l, (∀ k, k ∈ l → k ∈ kids adj node) → length (mjoin (all_paths (size adj) adj ({[node]} ∪ ∅) <$> l)) = sum_list (num adj <$> l)) as Hl; [|by apply Hl].
  induction l as [|k l IH]; intros Hin; [done|]. cbn [fmap list_fmap mjoin list_join sum_list]. rewrite app_length, Hk by (apply Hin; by left). rewrite <- IH; [done|]. intros k' Hk'. apply Hin. by right.
Qed.

Definition memo_ok (adj : adjacency) (cap : nat) (memo : gmap string nat) : Prop := ∀ n v, memo !! n = Some v → v = num adj n ∧ v < cap.
Definition counted (adj : adjacency) (cap want : nat) (stack : gset string) (r : nat * cstate) : Prop :=
  c_stack r.2 = stack ∧ if decide (cap ≤ want) then r.1 = cap ∧ c_truncated r.2 = true else r.1 = want ∧ c_truncated r.2 = false ∧ memo_ok adj cap (c_memo r.2).
Lemma count_kids_spec adj cap dfs stack : ∀ ks total memo, total < cap → memo_ok adj cap memo → (∀ k, k ∈ ks → k ∉ stack) →
  (∀ k memo, k ∈ ks → memo_ok adj cap memo → counted adj cap (num adj k) stack (dfs k (CS memo stack false))) →
  counted adj cap (total + sum_list (num adj <$> ks)) stack (count_kids dfs cap ks total (CS memo stack false)).
Proof.
  induction ks as [|k ks IH]; intros total memo Htot Hm Hks Hdfs; cbn [count_kids fmap list_fmap sum_list_with id].
  { split; [done|]. cbn. rewrite decide_False by lia. split; [lia|done]. }
  cbn [c_stack]. rewrite bool_decide_eq_false_2 by (apply Hks; by left). destruct (Hdfs k memo) as [Hs Hr]; [by left|done|]. destruct (dfs k _) as [v [memo' stack' tr']]. cbn [fst snd c_stack c_truncated c_memo] in *. subst stack'.
  destruct (decide (cap ≤ num adj k)) as [Hc|Hc].
  - destruct Hr as [-> ->]. rewrite bool_decide_eq_true_2 by lia. split; [done|]. rewrite decide_True by lia. done.
  - destruct Hr as (-> & -> & Hm'). destruct (decide (cap ≤ total + num adj k)) as [Hc'|Hc'].
    + rewrite bool_decide_eq_true_2 by done. split; [done|]. rewrite decide_True by lia. done.
    + rewrite bool_decide_eq_false_2 by done. replace (total + (num adj k + sum_list (num adj <$> ks))) with ((total + num adj k) + sum_list (num adj <$> ks)) by lia.
      apply IH; [lia|done|intros k' Hk'; apply Hks; by right|intros k' m' Hk'; apply Hdfs; by right].
Qed.
Lemma count_spec adj cap root : tidy adj → no_recursion adj root → 1 < cap → ∀ n node (stack : gset string) memo, rtc (edge adj) root node → (∀ s, s ∈ stack → tc (edge adj) s node) →
  size ((dom adj : gset string) ∖ stack) < n → memo_ok adj cap memo → counted adj cap (num adj node) stack (count n adj cap node (CS memo stack false)).
Proof.
  intros Ht Hac Hcap. induction n as [|n IH]; intros node stack memo Hreach Hst Hsz Hm; [lia|]. cbn [count c_memo c_stack c_truncated].
  destruct (memo !! node) as [v|] eqn:Ev.
  { destruct (Hm node v Ev) as [-> Hv]. split; [done|]. by rewrite decide_False by lia. }
  rewrite (num_acyclic adj node Ht (Hac node Hreach)). destruct (decide (kids adj node = [])) as [Hk|Hk].
  { rewrite bool_decide_eq_true_2 by done. split; [done|]. by rewrite decide_False by lia. }
  rewrite bool_decide_eq_false_2 by done.
  assert (node ∉ stack) as Hn. { intros Hin. apply (Hac node Hreach), Hst, Hin. }
  assert (counted adj cap (0 + sum_list (num adj <$> kids adj node)) ({[node]} ∪ stack) (count_kids (count n adj cap) cap (kids adj node) 0 (CS memo ({[node]} ∪ stack) false))) as [Hs Hr].
  { apply count_kids_spec; [lia|done| |].
    - intros k Hk'. apply edge_kids in Hk'. rewrite elem_of_union, elem_of_singleton. intros [-> | Hin]; apply (Hac node Hreach); [by apply tc_once|]. eapply tc_l; [exact Hk'|]. by apply Hst.
    - intros k m' Hk' Hm'. apply IH; [|intros s|..|done].
      + eapply rtc_r; [exact Hreach|by apply edge_kids].
      + rewrite elem_of_union, elem_of_singleton. intros [-> | Hin]; [apply tc_once; by apply edge_kids|]. eapply tc_r; [by apply Hst|by apply edge_kids].
      + pose proof (stack_measure adj stack node k Hk' Hn). lia. }
  rewrite Nat.add_0_l in Hr. destruct (count_kids _ _ _ _ _) as [total [memo' stack' tr']]. cbn [fst snd c_stack c_truncated c_memo] in *. subst stack'.
  assert (0 < sum_list (num adj <$> kids adj node)) as Hpos. { destruct (kids adj node) as [|k ks]; [done|]. cbn [fmap list_fmap sum_list_with id]. pose proof (num_pos adj k Ht). lia. }
  split.
  { cbn [snd c_stack]. apply set_eq. intros x. rewrite elem_of_difference, elem_of_union, elem_of_singleton. split; [intros [[?|?] ?]; done|]. intros Hx. split; [by right|]. intros ->. done. }
  cbn [fst snd c_truncated c_memo]. destruct (decide (cap ≤ sum_list _)) as [Hc|Hc].
  - destruct Hr as [-> ->]. rewrite bool_decide_eq_false_2 by lia. done.
  - destruct Hr as (-> & -> & Hm'). rewrite bool_decide_eq_false_2 by lia. split; [done|]. split; [done|]. intros x v. destruct (decide (x = node)) as [-> | Hne].
    + rewrite lookup_insert. intros [= <-]. split; [|lia]. rewrite (num_acyclic adj node Ht (Hac node Hreach)). by rewrite decide_False.
    + rewrite lookup_insert_ne by done. apply Hm'.
Qed.
Lemma count_paths_spec adj cap root : tidy adj → no_recursion adj root → 1 < cap → count_paths_with cap adj root = (cap `min` num adj root, bool_decide (cap ≤ num adj root)).
Proof.
  intros Ht Hac Hcap. unfold count_paths_with.
  destruct (count_spec adj cap root Ht Hac Hcap (S (size adj)) root ∅ ∅) as [_ Hr]; [done|intros s Hs; by apply elem_of_empty in Hs|apply dom_size|by intros x v; rewrite lookup_empty|].
  destruct (count _ _ _ _ _) as [v st]. cbn [fst snd] in *. destruct (decide (cap ≤ num adj root)) as [Hc|Hc].
  - destruct Hr as [-> ->]. rewrite bool_decide_eq_true_2 by done. f_equal. lia.
  - destruct Hr as (-> & -> & _). rewrite bool_decide_eq_false_2 by done. f_equal. lia.
Qed.
