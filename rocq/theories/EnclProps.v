(** * C100: the function a position is in. *)
From Coq Require Import Ascii ZArith Lia.
From stdpp Require Import sorting.
From stdpp Require Import base numbers list strings gmap.
From Verif Require Import StrLib EnclModel.

(** ** Specification *)
(** A node is a node of a tree. *)
Inductive under : anode → anode → Prop :=
| under_self n : under n n
| under_kid n k d : k ∈ n_kids n → under k d → under n d.
(** A position is strictly within a node: behind its first character and before the place behind its last. *)
Definition within (pos : Z) (n : anode) : Prop := (n_start n < pos)%Z ∧ (pos < n_fin n)%Z.
(** A literal around a position. *)
Definition around (file : anode) (pos : Z) (l : anode) : Prop := under file l ∧ n_lit l = true ∧ within pos l.
(** Literals lie within the nodes they are part of, if these have a place. *)
Definition nested (file : anode) : Prop := ∀ n l, under file n → n_start n ≠ 0%Z → n_fin n ≠ 0%Z → under n l → n_lit l = true → (n_start n ≤ n_start l)%Z ∧ (n_fin l ≤ n_fin n)%Z.
(** Literals of two children of a node do not overlap. *)
Definition apart (file : anode) : Prop := ∀ n i j k k' l l', under file n → n_kids n !! i = Some k → n_kids n !! j = Some k' → i ≠ j → under k l → under k' l' → n_lit l = true → n_lit l' = true → (n_fin l ≤ n_start l')%Z ∨ (n_fin l' ≤ n_start l)%Z.

(** ** Proofs *)
Lemma anode_kids (P : anode → Prop) : (∀ l s f ks, (∀ k, k ∈ ks → P k) → P (ANode l s f ks)) → ∀ n, P n.
Proof.
  intros H. fix IH 1. intros [l s f ks]. apply H. induction ks as [|k ks IHk].
  - clear IH. intros k Hk. by apply elem_of_nil in Hk.
  - pose proof (IH k) as Hk. clear IH. intros k' Hk'. apply elem_of_cons in Hk' as [->|Hk']; [exact Hk|exact (IHk k' Hk')].
Qed.
Lemma under_trans a b c : under a b → under b c → under a c.
Proof. induction 1 as [|n k d Hk _ IH]; [done|]. intros H. eapply under_kid; [exact Hk|by apply IH]. Qed.
Lemma walk_eq pos found n :
  walk pos found n = if off pos n then (if placed n then found else foldl (walk pos) found (n_kids n)) else foldl (walk pos) (if n_lit n then Some n else found) (n_kids n).
Proof.
  destruct n as [l s f ks]. cbn [walk n_kids n_lit].
  assert (E : ∀ ks found, (fix all (found : option anode) (ks : list anode) := match ks with [] => found | k :: ks => all (walk pos found k) ks end) found ks = foldl (walk pos) found ks).
  { clear. induction ks as [|k ks IH]; intros found; [done|]. cbn. apply IH. }
  rewrite !E. done.
Qed.
Lemma off_within pos n : off pos n = false ↔ within pos n.
Proof. unfold off, within. rewrite orb_false_iff, !bool_decide_eq_false. lia. Qed.
(** The exhaustive walk: all literals in order of appearance, the last around the position. *)
Fixpoint literals (n : anode) : list anode :=
  let 'ANode l s f ks := n in (if l then [n] else []) ++ (fix all (ks : list anode) := match ks with [] => [] | k :: ks => literals k ++ all ks end) ks.
Lemma literals_eq n : literals n = (if n_lit n then [n] else []) ++ concat (literals <$> n_kids n).
Proof. destruct n as [l s f ks]. cbn [literals n_kids n_lit]. f_equal. induction ks as [|k ks IH]; [done|]. cbn. by rewrite IH. Qed.
Lemma elem_concat_kids ks l : l ∈ concat (literals <$> ks) ↔ ∃ k, k ∈ ks ∧ l ∈ literals k.
Proof.
  induction ks as [|k ks IH]; cbn.
  - split; [intros H; by apply elem_of_nil in H|intros (k & H & _); by apply elem_of_nil in H].
  - rewrite elem_of_app, IH. split.
    + intros [H|(k' & Hk & H)]; [exists k; split; [by left|done]|exists k'; split; [by right|done]].
    + intros (k' & Hk & H). apply elem_of_cons in Hk as [->|Hk]; [by left|right; by exists k'].
Qed.
Lemma elem_literals : ∀ n l, l ∈ literals n ↔ under n l ∧ n_lit l = true.
Proof.
  apply (anode_kids (λ n, ∀ l, l ∈ literals n ↔ under n l ∧ n_lit l = true)). intros li s f ks IH l. rewrite literals_eq, elem_of_app, elem_concat_kids. cbn [n_lit n_kids]. split.
  - intros [H|(k & Hk & H)].
    + destruct li; [|by apply elem_of_nil in H]. apply elem_of_list_singleton in H as ->. split; [apply under_self|done].
    + apply (IH k Hk) in H as [H1 H2]. split; [by apply (under_kid _ k)|done].
  - intros [H1 H2]. inversion H1 as [|? k ? Hk Hu]; subst.
    + left. cbn in H2. subst li. by apply elem_of_list_singleton.
    + right. exists k. split; [done|]. by apply IH.
Qed.
Definition exhaustive (file : anode) (pos : Z) : option anode := last (filter (λ l, off pos l = false) (literals file)).
Lemma last_filter_app (P : anode → Prop) `{∀ x, Decision (P x)} l l' d : default d (Some <$> last (filter P (l ++ l'))) = default (default d (Some <$> last (filter P l))) (Some <$> last (filter P l')).
Proof. rewrite filter_app, last_app. by destruct (last (filter P l')). Qed.
Lemma walk_exhaustive pos : ∀ n found, nested n → walk pos found n = default found (Some <$> last (filter (λ l, off pos l = false) (literals n))).
Proof.
  apply (anode_kids (λ n, ∀ found, nested n → walk pos found n = default found (Some <$> last (filter (λ l, off pos l = false) (literals n))))). intros li s f ks IH found Hn.
  assert (K : ∀ ks' found, (∀ k, k ∈ ks' → k ∈ ks) → foldl (walk pos) found ks' = default found (Some <$> last (filter (λ l, off pos l = false) (concat (literals <$> ks'))))).
  { induction ks' as [|k ks' IHk]; intros fd Hs; [done|]. change (concat (literals <$> k :: ks')) with (literals k ++ concat (literals <$> ks')). rewrite last_filter_app. cbn [foldl]. rewrite IHk by (intros k' Hk'; apply Hs; by right). f_equal.
    apply IH; [apply Hs; by left|]. intros a b Ha. apply Hn. apply (under_kid _ k); [apply Hs; by left|done]. }
  rewrite walk_eq, literals_eq. cbn [n_lit n_kids]. set (n := ANode li s f ks). rewrite last_filter_app.
  destruct (off pos n) eqn:O.
  - assert (E0 : last (filter (λ l, off pos l = false) (if li then [n] else [])) = None). { destruct li; [|done]. rewrite filter_cons_False; [done|by rewrite O]. }
    rewrite E0. change (default found (Some <$> @None anode)) with found. destruct (placed n) eqn:Pn; [|apply K; done].
    assert (E : filter (λ l, off pos l = false) (concat (literals <$> ks)) = []); [|by rewrite E].
    destruct (filter (λ l, off pos l = false) (concat (literals <$> ks))) as [|l ls] eqn:E; [done|exfalso].
    assert (Hl : l ∈ filter (λ l, off pos l = false) (concat (literals <$> ks))) by (rewrite E; by left). apply elem_of_list_filter in Hl as [Hw Hl]. apply elem_concat_kids in Hl as (k & Hk & Hl). apply elem_literals in Hl as [Hu Hl].
    unfold placed in Pn. rewrite andb_true_iff, !bool_decide_eq_true in Pn. destruct Pn as [P1 P2]. destruct (Hn n l (under_self n) P1 P2) as [G1 G2]; [by apply (under_kid _ k)|done|].
    apply off_within in Hw as [W1 W2]. unfold off in O. apply orb_true_iff in O. rewrite !bool_decide_eq_true in O. lia.
  - rewrite K by done. f_equal. destruct li; [|done]. rewrite filter_cons_True by done. done.
Qed.
(** C100a: leaving out what cannot contain the position changes nothing. *)
Theorem C100_pruned file pos : nested file → enclosing_literal file pos = exhaustive file pos.
Proof. intros H. unfold enclosing_literal, exhaustive. rewrite walk_exhaustive by done. by destruct (last _). Qed.

Lemma innermost pos : ∀ n, nested n → apart n → ∀ l, last (filter (λ l, off pos l = false) (literals n)) = Some l → around n pos l ∧ ∀ l', around n pos l' → under l' l.
Proof.
  apply (anode_kids (λ n, nested n → apart n → ∀ l, last (filter (λ l, off pos l = false) (literals n)) = Some l → around n pos l ∧ ∀ l', around n pos l' → under l' l)). intros li s f ks IH Hn Ha l Hl.
  assert (M : l ∈ literals (ANode li s f ks) ∧ off pos l = false). { apply last_Some_elem_of, elem_of_list_filter in Hl. tauto. }
  destruct M as [Hm Hw]. pose proof Hm as Hm'. apply elem_literals in Hm' as [Hu Hlit]. pose proof Hw as Hw'. apply off_within in Hw'. split; [done|].
  rewrite literals_eq in Hl. cbn [n_lit n_kids] in Hl. rewrite filter_app, last_app in Hl.
  destruct (last (filter (λ l, off pos l = false) (concat (literals <$> ks)))) as [l0|] eqn:E.
  - injection Hl as ->. assert (Hc : l ∈ concat (literals <$> ks)). { apply last_Some_elem_of, elem_of_list_filter in E. tauto. }
    intros l' (Hu' & Hlit' & Hw2). inversion Hu' as [|? k' ? Hk' Hu2]; subst; [exact Hu|]. cbn [n_kids] in Hk'.
    (* both lie in children; the same one, else they would be apart *)
    assert (Hex : ∃ i k, ks !! i = Some k ∧ last (filter (λ l, off pos l = false) (literals k)) = Some l).
    { clear - E. induction ks as [|k ks IH]; [done|]. change (concat (literals <$> k :: ks)) with (literals k ++ concat (literals <$> ks)) in E. rewrite filter_app, last_app in E. destruct (last (filter (λ l, off pos l = false) (concat (literals <$> ks)))) as [x|].
      - destruct (IH E) as (i & k' & Hi & Hk). by exists (S i), k'.
      - by exists 0, k. }
    destruct Hex as (i & k & Hi & Hk). apply elem_of_list_lookup in Hk' as [j Hj]. destruct (decide (i = j)) as [->|Nij].
    + assert (k' = k) as -> by congruence. apply elem_of_list_lookup_2 in Hi as Hki. refine (proj2 (IH k Hki _ _ l Hk) l' _); [| |done].
      * intros a b Hab. apply Hn. by apply (under_kid _ k).
      * intros a i' j' x y z w Hab. apply Ha. by apply (under_kid _ k).
    + exfalso. assert (Huk : under k l). { apply last_Some_elem_of, elem_of_list_filter in Hk as [_ Hk]. by apply elem_literals in Hk as [? _]. }
      destruct (Ha (ANode li s f ks) i j k k' l l' (under_self _) Hi Hj Nij Huk Hu2 Hlit Hlit') as [G|G]; destruct Hw', Hw2; lia.
  - destruct li; [|done]. rewrite filter_cons in Hl. destruct (decide (off pos (ANode true s f ks) = false)) as [D|D]; [|done]. injection Hl as <-. intros l' (Hu' & Hlit' & Hw2). inversion Hu' as [|? k' ? Hk' Hu2]; subst; [apply under_self|exfalso].
    apply last_None in E. assert (X : l' ∈ filter (λ l, off pos l = false) (concat (literals <$> ks))). { apply elem_of_list_filter. split; [by apply off_within|]. apply elem_concat_kids. exists k'. split; [done|]. by apply elem_literals. } rewrite E in X. by apply elem_of_nil in X.
Qed.
Fixpoint weight (n : anode) : nat := let 'ANode _ _ _ ks := n in S ((fix all (ks : list anode) := match ks with [] => 0 | k :: ks => weight k + all ks end) ks).
Lemma weight_kid n k : k ∈ n_kids n → weight k < weight n.
Proof. destruct n as [l s f ks]. cbn [n_kids weight]. induction ks as [|x ks IH]; intros H; [by apply elem_of_nil in H|]. apply elem_of_cons in H as [->|H]; [lia|]. specialize (IH H). lia. Qed.
Lemma weight_under n d : under n d → n = d ∨ weight d < weight n.
Proof. induction 1 as [|n k d Hk _ [->|IH]]; [by left|right; by apply weight_kid|right]. apply weight_kid in Hk. lia. Qed.
(** C100b: what is found is exactly the innermost literal around the position, the one all others around it contain. *)
Theorem C100_literal_iff file pos l : nested file → apart file → enclosing_literal file pos = Some l ↔ around file pos l ∧ ∀ l', around file pos l' → under l' l.
Proof.
  intros Hn Ha. rewrite C100_pruned by done. unfold exhaustive. split; [by apply innermost|]. intros [H1 H2].
  destruct (last (filter (λ l, off pos l = false) (literals file))) as [l0|] eqn:E.
  - destruct (innermost pos file Hn Ha l0 E) as [G1 G2]. f_equal. specialize (H2 l0 G1). specialize (G2 l H1). destruct (weight_under _ _ H2) as [?|?], (weight_under _ _ G2) as [?|?]; [done|done|by symmetry|lia].
  - exfalso. apply last_None in E. destruct H1 as (Hu & Hl & Hw). assert (X : l ∈ filter (λ l, off pos l = false) (literals file)). { apply elem_of_list_filter. split; [by apply off_within|by apply elem_literals]. } rewrite E in X. by apply elem_of_nil in X.
Qed.
Theorem C100_none_iff file pos : nested file → enclosing_literal file pos = None ↔ ¬ ∃ l, around file pos l.
Proof.
  intros Hn. rewrite C100_pruned by done. unfold exhaustive. rewrite last_None. split.
  - intros E (l & Hu & Hl & Hw). assert (X : l ∈ filter (λ l, off pos l = false) (literals file)). { apply elem_of_list_filter. split; [by apply off_within|by apply elem_literals]. } rewrite E in X. by apply elem_of_nil in X.
  - intros H. destruct (filter (λ l, off pos l = false) (literals file)) as [|l ls] eqn:E; [done|]. exfalso. apply H. exists l. assert (X : l ∈ filter (λ l, off pos l = false) (literals file)) by (rewrite E; by left). apply elem_of_list_filter in X as [Hw Hu]. apply elem_literals in Hu as [? ?]. split; [done|]. split; [done|by apply off_within].
Qed.

Section names.
  Context (stable : Z → string).
  (** Declarations do not share a position, counting the one behind each. *)
  Definition separate (decls : list fdecl) : Prop := ∀ i j d d', decls !! i = Some d → decls !! j = Some d' → i ≠ j → (fd_fin d < fd_start d')%Z ∨ (fd_fin d' < fd_start d)%Z.
  (** A declaration with a name. *)
  Definition named (decls : list fdecl) : Prop := ∀ d, d ∈ decls → fd_name d ≠ "".
  Lemma find_decl (P : fdecl → Prop) `{∀ d, Decision (P d)} decls name recv :
    (∀ i j d d', decls !! i = Some d → decls !! j = Some d' → P d → P d' → i = j) → named decls → name ≠ "" →
    match list_find P decls with Some (_, d) => (fd_name d, fd_recv d) | None => ("", "") end = (name, recv) ↔ ∃ d, d ∈ decls ∧ P d ∧ fd_name d = name ∧ fd_recv d = recv.
  Proof.
    intros Hun Hnm Hne. destruct (list_find P decls) as [[i d]|] eqn:E.
    - apply list_find_Some in E as (Hi & Hp & _). split.
      + intros [= <- <-]. exists d. split; [by eapply elem_of_list_lookup_2|done].
      + intros (d' & Hd & Hp' & <- & <-). apply elem_of_list_lookup in Hd as [j Hj]. assert (i = j) as <- by (by eapply Hun). by assert (d' = d) as -> by congruence.
    - apply list_find_None in E. rewrite Forall_forall in E. split; [intros [= ? ?]; congruence|]. intros (d & Hd & Hp & _). by destruct (E d Hd).
  Qed.
  (** C100c: a position belongs to the innermost literal around it, named after its start, and if there is none to the declaration that spans it. *)
  Theorem C100_enclosing_iff file decls pos name recv : nested file → apart file → separate decls → named decls → name ≠ "" →
    enclosing_name stable file decls pos = (name, recv) ↔
    (∃ l, around file pos l ∧ (∀ l', around file pos l' → under l' l) ∧ name = "FuncLit:" +:+ stable (n_start l) ∧ recv = "") ∨
    (¬ ∃ l, around file pos l) ∧ ∃ d, d ∈ decls ∧ (fd_start d ≤ pos ≤ fd_fin d)%Z ∧ fd_name d = name ∧ fd_recv d = recv.
  Proof.
    intros Hn Ha Hs Hnm Hne. unfold enclosing_name. destruct (enclosing_literal file pos) as [l|] eqn:E.
    - apply C100_literal_iff in E as [A1 A2]; [|done|done]. split.
      + intros Q. assert (name = lit_prefix +:+ stable (n_start l) ∧ recv = "") as [-> ->] by (split; congruence). left. exists l. done.
      + intros [(l' & B1 & B2 & -> & ->)|[B _]]; [|destruct B; by exists l]. assert (l' = l) as ->; [|done]. pose proof (A2 l' B1) as U1. pose proof (B2 l A1) as U2. destruct (weight_under _ _ U1) as [?|?], (weight_under _ _ U2) as [?|?]; [done|done|by symmetry|lia].
    - apply C100_none_iff in E; [|done]. rewrite find_decl; [|clear - Hs|done|done].
      + split; [by right|]. intros [(l & B & _)|[_ B]]; [destruct E; by exists l|done].
      + intros i j d d' Hi Hj P1 P2. destruct (decide (i = j)) as [|N]; [done|]. destruct (Hs i j d d' Hi Hj N) as [?|?]; lia.
  Qed.
  (** C100d: the parent of a call is the declaration that spans the innermost literal around it. *)
  Theorem C100_parent_iff file decls pos name recv : nested file → apart file → separate decls → named decls → name ≠ "" → (∀ l, under file l → n_lit l = true → (n_start l ≤ n_fin l)%Z) →
    parent_name file decls pos = (name, recv) ↔
    ∃ l d, around file pos l ∧ (∀ l', around file pos l' → under l' l) ∧ d ∈ decls ∧ (fd_start d ≤ n_start l)%Z ∧ (n_fin l ≤ fd_fin d)%Z ∧ fd_name d = name ∧ fd_recv d = recv.
  Proof.
    intros Hn Ha Hs Hnm Hne Ho. unfold parent_name. destruct (enclosing_literal file pos) as [l|] eqn:E.
    - apply C100_literal_iff in E as [A1 A2]; [|done|done]. pose proof (Ho l (proj1 A1) (proj1 (proj2 A1))) as Hl. rewrite find_decl; [|clear - Hs Hl|done|done].
      + split.
        * intros (d & Hd & [P1 P2] & Q1 & Q2). exists l, d. done.
        * intros (l' & d & B1 & B2 & Hd & P1 & P2 & Q1 & Q2). assert (l' = l) as ->; [|by exists d]. pose proof (A2 l' B1) as U1. pose proof (B2 l A1) as U2. destruct (weight_under _ _ U1) as [?|?], (weight_under _ _ U2) as [?|?]; [done|done|by symmetry|lia].
      + intros i j d d' Hi Hj P1 P2. destruct (decide (i = j)) as [|N]; [done|]. destruct (Hs i j d d' Hi Hj N) as [?|?]; lia.
    - apply C100_none_iff in E; [|done]. split; [intros Q; congruence|]. intros (l & d & B & _). destruct E. by exists l.
  Qed.
End names.

(** ** Examples: a literal within another, in a declaration; the position of a call of a literal on the spot. *)
Definition e_inner : anode := ANode true 30 40 [ANode false 34 38 []].
Definition e_outer : anode := ANode true 20 50 [ANode false 25 49 [e_inner]].
Definition e_file : anode := ANode false 1 100 [ANode false 10 60 [ANode false 18 59 [ANode false 0 0 [e_outer]]]; ANode false 70 90 [ANode true 75 80 []]].
Definition e_decls : list fdecl := [FDecl 10 60 "Serve" "Server"].
Example C100_inner : enclosing_literal e_file 35 = Some e_inner.
Proof. by vm_compute. Qed.
Example C100_start : enclosing_literal e_file 30 = Some e_outer.
Proof. by vm_compute. Qed.
Example C100_names : enclosing_name (λ _, "a.go:1:2") e_file e_decls 35 = ("FuncLit:a.go:1:2", "") ∧ enclosing_name (λ _, "a.go:1:2") e_file e_decls 55 = ("Serve", "Server") ∧ parent_name e_file e_decls 35 = ("Serve", "Server").
Proof. by vm_compute. Qed.
(** The nodes of a tree, to check the examples' hypotheses. *)
Fixpoint nodes (n : anode) : list anode := let 'ANode _ _ _ ks := n in n :: (fix all (ks : list anode) := match ks with [] => [] | k :: ks => nodes k ++ all ks end) ks.
Lemma nodes_under : ∀ n d, under n d → d ∈ nodes n.
Proof.
  intros n d. induction 1 as [n|n k d Hk _ IH]; destruct n as [l s f ks]; cbn [nodes]; [by left|right]. cbn [n_kids] in Hk. induction ks as [|x ks IHk]; [by apply elem_of_nil in Hk|]. apply elem_of_app. apply elem_of_cons in Hk as [<-|Hk]; [by left|right; by apply IHk].
Qed.
Example C100_hypotheses : nested e_file ∧ apart e_file ∧ separate e_decls ∧ named e_decls.
Proof.
  split; [|split; [|split]].
  - assert (G : Forall (λ n, n_start n ≠ 0%Z → n_fin n ≠ 0%Z → Forall (λ l, n_lit l = true → (n_start n ≤ n_start l)%Z ∧ (n_fin l ≤ n_fin n)%Z) (nodes n)) (nodes e_file)) by (apply (bool_decide_unpack _); by vm_compute).
    intros n l Hn S F Hl. apply nodes_under in Hn, Hl. rewrite Forall_forall in G. specialize (G n Hn S F). rewrite Forall_forall in G. by apply G.
  - assert (G : Forall (λ n, Forall (λ p : nat * anode, Forall (λ q : nat * anode, p.1 ≠ q.1 → Forall (λ l, Forall (λ l', n_lit l = true → n_lit l' = true → (n_fin l ≤ n_start l')%Z ∨ (n_fin l' ≤ n_start l)%Z) (nodes q.2)) (nodes p.2)) (imap pair (n_kids n))) (imap pair (n_kids n))) (nodes e_file)) by (apply (bool_decide_unpack _); by vm_compute).
    intros n i j k k' l l' Hn Hi Hj N Hl Hl'. apply nodes_under in Hn, Hl, Hl'. rewrite Forall_forall in G. specialize (G n Hn). rewrite Forall_forall in G.
    assert (I : (i, k) ∈ imap pair (n_kids n)) by (apply elem_of_lookup_imap; by exists i, k). assert (J : (j, k') ∈ imap pair (n_kids n)) by (apply elem_of_lookup_imap; by exists j, k').
    specialize (G _ I). rewrite Forall_forall in G. specialize (G _ J N). rewrite Forall_forall in G. specialize (G l Hl). rewrite Forall_forall in G. by apply G.
  - intros [|i] [|j] d d' H1 H2; cbn in *; try done.
  - intros d Hd. by apply elem_of_list_singleton in Hd as ->.
Qed.
(** C100e: a literal outside of every declaration has no parent: [var Handler = func(w, r) { … }]. *)
Theorem C100_parentless_refuted : ∃ file decls pos l, nested file ∧ apart file ∧ around file pos l ∧ parent_name file decls pos = ("", "").
Proof.
  exists e_file, e_decls, 77%Z, (ANode true 75 80 []). destruct C100_hypotheses as (H1 & H2 & _). split; [done|]. split; [done|]. split; [|by vm_compute].
  split; [|split; [done|split; cbn; lia]]. apply (under_kid _ (ANode false 70 90 [ANode true 75 80 []])); [by right; left|]. apply (under_kid _ (ANode true 75 80 [])); [by left|apply under_self].
Qed.
Print Assumptions C100_pruned. Print Assumptions C100_literal_iff. Print Assumptions C100_none_iff. Print Assumptions C100_enclosing_iff. Print Assumptions C100_parent_iff. Print Assumptions C100_parentless_refuted.
