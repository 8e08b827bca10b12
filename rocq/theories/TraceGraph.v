(** * Proofs about the diagram of a call trace. *)
From stdpp Require Import sorting.
From stdpp Require Import base numbers list strings gmap relations.
From Verif Require Import StrLib StrOrder SccSpec SecProps TraceModel TraceSpec.

Definition node_le (a b : string * nat) : Prop := node_lt b a = false.
Lemma node_lt_spec a b : node_lt a b = true ↔ closer a b.
Proof.
  unfold node_lt, closer. rewrite orb_true_iff, andb_true_iff, !bool_decide_eq_true. done.
Qed.
Lemma node_le_spec a b : node_le a b ↔ a.2 < b.2 ∨ (a.2 = b.2 ∧ string_le a.1 b.1).
Proof.
  unfold node_le. rewrite <- not_true_iff_false, node_lt_spec. unfold closer. rewrite <- string_lt_not_le. rewrite <- not_true_iff_false. split.
  - intros H. destruct (decide (a.2 < b.2)); [by left|]. right. assert (a.2 = b.2) as E. { destruct (decide (b.2 < a.2)); [exfalso; apply H; by left|lia]. } split; [done|]. intros Hs. apply H. right. by rewrite E.
  - intros [H|[H1 H2]] [H'|[H1' H2']]; try lia. done.
Qed.
Global Instance node_le_trans : Transitive node_le.
Proof. intros a b c. rewrite !node_le_spec. intros [H|[H H']] [G|[G G']]; [left; lia|left; lia|left; lia|]. right. split; [congruence|]. by etransitivity. Qed.
Lemma node_le_antisym a b : node_le a b → node_le b a → a = b.
Proof. rewrite !node_le_spec. intros [H|[H H']] [G|[G G']]; try lia. destruct a as [x d], b as [y e]. cbn in *. subst. f_equal. by apply (anti_symm string_le). Qed.
Lemma node_lt_le a b : node_lt a b = true → node_le a b.
Proof. rewrite node_lt_spec, node_le_spec. unfold closer. intros [?|[? ?]]; [by left|]. right. split; [done|]. by apply string_lt_le. Qed.

Lemma node_insert_perm x l : node_insert x l ≡ₚ x :: l.
Proof. induction l as [|y l IH]; cbn [node_insert]; [done|]. destruct (node_lt x y); [|done]. rewrite IH. apply Permutation_swap. Qed.
Lemma node_insert_sorted x l : StronglySorted (flip node_le) l → StronglySorted (flip node_le) (node_insert x l).
Proof.
  induction l as [|y l IH]; cbn [node_insert]; [repeat constructor|]. intros H. apply StronglySorted_inv in H as [Hl Hy]. destruct (node_lt x y) eqn:E.
  - constructor; [by apply IH|]. rewrite node_insert_perm. constructor; [by apply node_lt_le|done].
  - constructor; [by constructor|]. constructor; [done|]. apply Forall_forall. intros z Hz. rewrite Forall_forall in Hy. specialize (Hy z Hz). unfold flip in *. by transitivity y.
Qed.
Lemma node_sort_perm l : node_sort l ≡ₚ l.
Proof.
  unfold node_sort. rewrite reverse_Permutation. assert (∀ acc, foldl (λ acc x, node_insert x acc) acc l ≡ₚ l ++ acc) as Hgo; [|by rewrite Hgo, app_nil_r].
  induction l as [|x l IH]; intros acc; cbn [foldl]; [done|]. rewrite IH, node_insert_perm. cbn [app]. symmetry. apply Permutation_middle.
Qed.
Lemma sorted_reverse {A} (R : relation A) (l : list A) : StronglySorted (flip R) l → StronglySorted R (reverse l).
Proof.
  induction l as [|x l IH]; intros H; [constructor|]. apply StronglySorted_inv in H as [Hl Hx]. rewrite reverse_cons. specialize (IH Hl).
  assert (Forall (λ y, R y x) (reverse l)) as Hr by (by rewrite Forall_reverse). clear -IH Hr. induction (reverse l) as [|y r IHr]; [repeat constructor|].
  apply StronglySorted_inv in IH as [H1 H2]. apply Forall_cons in Hr as [H3 H4]. cbn [app]. constructor; [by apply IHr|]. apply Forall_app. split; [done|]. by constructor.
Qed.
Lemma node_sort_sorted l : StronglySorted node_le (node_sort l).
Proof.
  unfold node_sort. apply sorted_reverse. assert (∀ acc, StronglySorted (flip node_le) acc → StronglySorted (flip node_le) (foldl (λ acc x, node_insert x acc) acc l)) as Hgo; [|apply Hgo; constructor].
  induction l as [|x l IH]; intros acc H; cbn [foldl]; [done|]. apply IH. by apply node_insert_sorted.
Qed.
Lemma sorted_perm_eq (l l' : list (string * nat)) : StronglySorted node_le l → StronglySorted node_le l' → l ≡ₚ l' → l = l'.
Proof.
  revert l'. induction l as [|x l IH]; intros l' H H' Hp; [by apply Permutation_nil_l in Hp|]. destruct l' as [|y l']; [by apply Permutation_nil_r in Hp|].
  apply StronglySorted_inv in H as [H1 H2]. apply StronglySorted_inv in H' as [H1' H2']. rewrite Forall_forall in H2. rewrite Forall_forall in H2'.
  assert (x = y) as ->.
  { assert (x ∈ y :: l') as Hx by (rewrite <- Hp; by left). assert (y ∈ x :: l) as Hy by (rewrite Hp; by left).
    apply elem_of_cons in Hx as [-> | Hx]; [done|]. apply elem_of_cons in Hy as [-> | Hy]; [done|]. apply node_le_antisym; [by apply H2|by apply H2']. }
  f_equal. apply IH; [done|done|]. by apply Permutation_cons_inv in Hp.
Qed.

Section diagram.
  Context (iter : list (string * nat) → list (string * nat)) (iter' : list (string * list string) → list (string * list string)) (cap : nat) (adj : adjacency) (depth : gmap string nat).
  Context (Hiter : is_order iter) (Hiter' : is_order iter').
  Let all := node_sort (iter (map_to_list depth)).
  Let nodes := take cap all.
  Let edges := (trace_graph iter iter' cap adj depth).1.2.
  Lemma all_perm : all ≡ₚ map_to_list depth.
  Proof. unfold all. rewrite node_sort_perm. apply Hiter. Qed.
  Lemma elem_of_all x d : (x, d) ∈ all ↔ depth !! x = Some d.
  Proof. rewrite all_perm. apply elem_of_map_to_list. Qed.
  Lemma all_strict : StronglySorted closer all.
  Proof.
    pose proof (node_sort_sorted (iter (map_to_list depth))) as Hs. fold all in Hs. assert (NoDup all) as Hn by (rewrite all_perm; apply NoDup_map_to_list).
    clear -Hs Hn. induction all as [|a l IH]; [constructor|]. apply StronglySorted_inv in Hs as [H1 H2]. apply NoDup_cons in Hn as [Hn1 Hn2]. constructor; [by apply IH|].
    rewrite Forall_forall in H2. apply Forall_forall. intros b Hb. specialize (H2 b Hb). apply node_le_spec in H2. unfold closer. destruct H2 as [?|[E Hle]]; [by left|]. right. split; [done|].
    destruct (string_lt a.1 b.1) eqn:El; [done|]. apply string_lt_not_le in El. exfalso. apply Hn1. replace a with b; [done|]. destruct a, b. cbn in *. subst. f_equal. by apply (anti_symm string_le).
  Qed.
  Lemma nodes_far x d y e : (x, d) ∈ nodes → depth !! y = Some e → (y, e) ∉ nodes → closer (x, d) (y, e).
  Proof.
    intros Hx Hy Hn. apply elem_of_all in Hy. pose proof all_strict as Hs. rewrite <- (take_drop cap all) in Hs, Hy. fold nodes in Hs, Hy. apply elem_of_app in Hy as [Hy|Hy]; [done|].
    clear -Hs Hx Hy. induction nodes as [|a l IH]; [by apply elem_of_nil in Hx|]. cbn [app] in Hs. apply StronglySorted_inv in Hs as [H1 H2]. apply elem_of_cons in Hx as [<- | Hx]; [|by apply IH].
    rewrite Forall_forall in H2. apply H2. rewrite elem_of_app. by right.
  Qed.
  Lemma nodes_sorted : StronglySorted closer nodes.
  Proof.
    pose proof all_strict as Hs. rewrite <- (take_drop cap all) in Hs. fold nodes in Hs. clear -Hs. induction nodes as [|a l IH]; [constructor|]. cbn [app] in Hs. apply StronglySorted_inv in Hs as [H1 H2]. apply Forall_app in H2 as [H2 _]. constructor; [by apply IH|done].
  Qed.
  Lemma nodes_in x d : (x, d) ∈ nodes → depth !! x = Some d.
  Proof. intros H. apply elem_of_all. by eapply elem_of_take in H as (i & H & _); apply elem_of_list_lookup_2 in H. Qed.
  Lemma nodes_length : length nodes = cap `min` size depth.
  Proof. unfold nodes. rewrite take_length. f_equal. rewrite all_perm. done. Qed.
  Lemma edges_spec x y : (x, y) ∈ edges ↔ edge adj x y ∧ x ∈ nodes.*1 ∧ y ∈ nodes.*1.
  Proof.
    unfold edges, trace_graph. cbn [fst snd]. fold all. fold nodes. rewrite elem_of_list_join. split.
    - intros (l & Hl & Hin). apply elem_of_list_fmap in Hin as ((src & ks) & -> & Hin). rewrite Hiter' in Hin. apply elem_of_map_to_list in Hin. destruct (bool_decide (src ∈ nodes.*1)) eqn:E; [|by apply elem_of_nil in Hl].
      apply bool_decide_eq_true in E. apply elem_of_list_fmap in Hl as (k & [= -> ->] & Hk). apply elem_of_list_filter in Hk as [Hk Hk']. apply bool_decide_eq_true in Hk. split; [by exists ks|done].
    - intros ((l & Hl & Hy) & Hx & Hyn). exists ((λ k, (x, k)) <$> filter (λ k, bool_decide (k ∈ nodes.*1) = true) l). split.
      + apply elem_of_list_fmap. exists y. split; [done|]. apply elem_of_list_filter. split; [by apply bool_decide_eq_true|done].
      + apply elem_of_list_fmap. exists (x, l). split; [|rewrite Hiter'; by apply elem_of_map_to_list]. by rewrite bool_decide_eq_true_2.
  Qed.
  Lemma edges_nodup : tidy adj → NoDup edges.
  Proof.
    intros Ht. unfold edges, trace_graph. cbn [fst snd]. fold all. fold nodes.
    assert (∀ l : list (string * list string), NoDup l.*1 → (∀ x ks, (x, ks) ∈ l → NoDup ks) →
      NoDup (mjoin ((λ '(src, ks), if bool_decide (src ∈ nodes.*1) then (λ k, (src, k)) <$> filter (λ k, bool_decide (k ∈ nodes.*1) = true) ks else []) <$> l))) as Hgo.
    { induction l as [|[src ks] l IH]; intros H1 H2; [apply NoDup_nil_2|]. cbn [fmap list_fmap mjoin list_join]. apply NoDup_cons in H1 as [H1 H1']. apply NoDup_app. split; [|split].
      - destruct (bool_decide (src ∈ nodes.*1)); [|apply NoDup_nil_2]. apply NoDup_fmap_2; [intros ? ? [= ->]; done|]. apply NoDup_filter. apply (H2 src). by left.
      - intros [a b] Hab Hj. destruct (bool_decide (src ∈ nodes.*1)); [|by apply elem_of_nil in Hab]. apply elem_of_list_fmap in Hab as (k & [= -> ->] & _).
        apply elem_of_list_join in Hj as (l' & Hin & Hl'). apply elem_of_list_fmap in Hl' as ((s & ks') & -> & Hs). destruct (bool_decide (s ∈ nodes.*1)); [|by apply elem_of_nil in Hin].
        apply elem_of_list_fmap in Hin as (k' & [= -> ->] & _). apply H1. apply elem_of_list_fmap. by exists (s, ks').
      - apply IH; [done|]. intros x ks' Hin. apply (H2 x). by right. }
    apply Hgo; [rewrite Hiter'; apply NoDup_fst_map_to_list|]. intros x ks Hin. rewrite Hiter' in Hin. apply elem_of_map_to_list in Hin. by apply Ht in Hin as [? _].
  Qed.
End diagram.
