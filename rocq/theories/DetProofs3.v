From stdpp Require Import sorting.
From Coq Require Import Ascii.
From stdpp Require Import base list strings gmap relations.
From Verif Require Import StrOrder StrLib StrSplit StrSub StableSort SccSpec DetModel DetSpec DetProofs DetProofs2.

(** ** Last package per path *)
Lemma last_fold {V} (f : package → V) pkgs p v :
  foldl (λ m pk, <[pk_path pk := f pk]> m) (∅ : gmap string V) pkgs !! p = Some v ↔
  ∃ pk, package_at pkgs p pk ∧ v = f pk.
Proof.
  induction pkgs as [|x pkgs IH] using rev_ind.
  - simpl. rewrite lookup_empty. split; [done|]. intros (pk & (a & b & H & _) & _). by destruct a.
  - rewrite foldl_app. simpl. destruct (decide (pk_path x = p)) as [Hx|Hx].
    + rewrite <-Hx, lookup_insert. split.
      * intros [= <-]. exists x. split; [|done]. exists pkgs, []. split; [done|]. split; [done|].
        intros ? ?%elem_of_nil. done.
      * intros (pk & (a & b & Heq & Hp & Hb) & ->). destruct b as [|y b' _] using rev_ind.
        { apply app_inj_tail in Heq as [_ ->]. done. }
        replace (a ++ pk :: b' ++ [y]) with ((a ++ pk :: b') ++ [y]) in Heq by (by rewrite <-app_assoc).
        apply app_inj_tail in Heq as [_ ->]. exfalso. apply (Hb y); [|done]. apply elem_of_app. right. left.
    + rewrite lookup_insert_ne by done. rewrite IH. split.
      * intros (pk & (a & b & -> & Hp & Hb) & ->). exists pk. split; [|done]. exists a, (b ++ [x]).
        split; [by rewrite <-app_assoc|]. split; [done|]. intros y Hy.
        apply elem_of_app in Hy as [Hy|Hy]; [by apply Hb|]. by apply elem_of_list_singleton in Hy as ->.
      * intros (pk & (a & b & Heq & Hp & Hb) & ->). exists pk. split; [|done].
        destruct b as [|y b' _] using rev_ind.
        { apply app_inj_tail in Heq as [_ ->]. done. }
        replace (a ++ pk :: b' ++ [y]) with ((a ++ pk :: b') ++ [y]) in Heq by (by rewrite <-app_assoc).
        apply app_inj_tail in Heq as [-> ->]. exists a, b'. split; [done|]. split; [done|].
        intros z Hz. apply Hb. apply elem_of_app. by left.
Qed.

Lemma available_spec pkgs p pk : available pkgs !! p = Some pk ↔ package_at pkgs p pk.
Proof.
  unfold available. rewrite (last_fold (λ x, x)). split; [intros (x & Hx & ->); done|]. intros H. by exists pk.
Qed.

Lemma build_graph_lookup pkgs p ds : build_graph pkgs !! p = Some ds ↔
  ∃ pk, package_at pkgs p pk ∧ ds = filter (λ d, d ≠ "") (pk_imports pk).
Proof. unfold build_graph. apply (last_fold (λ pk, filter (λ d, d ≠ "") (pk_imports pk))). Qed.

Lemma deps_of_spec pkgs p q : q ∈ deps_of (build_graph pkgs) p ↔ nonempty_imports pkgs p q.
Proof.
  unfold deps_of, nonempty_imports, imports. split.
  - destruct (build_graph pkgs !! p) as [ds|] eqn:E; simpl; [|by intros ?%elem_of_nil].
    apply build_graph_lookup in E as (pk & Hpk & ->). intros Hq. apply elem_of_list_filter in Hq as [Hne Hq].
    split; [|done]. by exists pk.
  - intros [(pk & Hpk & Hq) Hne].
    assert (build_graph pkgs !! p = Some (filter (λ d, d ≠ "") (pk_imports pk))) as ->
      by (apply build_graph_lookup; by exists pk).
    simpl. by apply elem_of_list_filter.
Qed.

Lemma fold_dom_size {V} (f : package → V) pkgs : ∀ m : gmap string V,
  size (dom (foldl (λ m pk, <[pk_path pk := f pk]> m) m pkgs)) ≤ size (dom m) + length pkgs.
Proof.
  induction pkgs as [|x pkgs IH]; intros m; simpl; [lia|]. specialize (IH (<[pk_path x:=f x]> m)).
  rewrite dom_insert_L in IH. pose proof (size_union_alt {[pk_path x]} (dom m)) as Hs.
  rewrite size_singleton in Hs.
  assert (size (dom m ∖ {[pk_path x]}) ≤ size (dom m)) by (apply subseteq_size; set_solver). lia.
Qed.
Lemma build_graph_size pkgs : size (dom (build_graph pkgs)) ≤ length pkgs.
Proof. unfold build_graph. pose proof (fold_dom_size (λ pk, filter (λ d, d ≠ "") (pk_imports pk)) pkgs ∅) as H. rewrite dom_empty_L, size_empty in H. lia. Qed.
Lemma available_size pkgs : size (dom (available pkgs)) ≤ length pkgs.
Proof. unfold available. pose proof (fold_dom_size (λ pk, pk) pkgs ∅) as H. rewrite dom_empty_L, size_empty in H. lia. Qed.

(** ** hasTransitiveFrameworkDependency *)
Section trans.
Context (g : gmap string (list string)) (fw : gset string).
Definition dep (p q : string) : Prop := q ∈ deps_of g p.

Definition trans_post (start : list string) (vis : gset string) (r : bool * gset string) : Prop :=
  vis ⊆ r.2 ∧
  (r.1 = true → ∃ d q, d ∈ start ∧ rtc dep d q ∧ q ∈ fw) ∧
  (r.1 = false → (∀ d, d ∈ start → d ∉ fw ∧ d ∈ r.2) ∧
     ∀ x y, x ∈ r.2 → x ∉ vis → dep x y → y ∉ fw ∧ y ∈ r.2).

Lemma trans_loop_post rec ds : ∀ vis r,
  (∀ d v r, d ∉ fw → rec d v = Some r → trans_post [d] v r) →
  trans_loop rec fw ds vis = Some r → trans_post ds vis r.
Proof.
  induction ds as [|d ds IH]; intros vis r Hrec Hl; simpl in Hl.
  { injection Hl as <-. split; [done|]. split; [done|]. intros _. split; [by intros ? ?%elem_of_nil|]. done. }
  destruct (decide (d ∈ fw)) as [Hd|Hd].
  { injection Hl as <-. split; [done|]. split; [|done]. intros _. exists d, d. split; [left|]. done. }
  destruct (rec d vis) as [[[] v]|] eqn:E; [| |done].
  - injection Hl as <-. destruct (Hrec _ _ _ Hd E) as (Hv & Ht & _). split; [done|]. split; [|done].
    intros _. destruct (Ht eq_refl) as (d' & q & Hd' & Hr & Hq). apply elem_of_list_singleton in Hd' as ->.
    exists d, q. split; [left|done].
  - destruct (Hrec _ _ _ Hd E) as (Hv & _ & Hf). destruct (Hf eq_refl) as [Hf1 Hf2]. simpl in *.
    destruct (IH v r Hrec Hl) as (Hv' & Ht' & Hf'). split; [by etrans|]. split.
    + intros Hr. destruct (Ht' Hr) as (d' & q & Hd' & Hq). exists d', q. split; [by right|done].
    + intros Hr. destruct (Hf' Hr) as [Hg1 Hg2]. split.
      * intros d' Hd'. apply elem_of_cons in Hd' as [->|Hd']; [|by apply Hg1].
        split; [done|]. apply Hv'. apply Hf1. left.
      * intros x y Hx Hn Hxy. destruct (decide (x ∈ v)) as [Hxv|Hxv]; [|by eapply Hg2].
        destruct (Hf2 x y Hxv Hn Hxy). split; [done|by apply Hv'].
Qed.

Lemma has_trans_post n : ∀ p vis r, p ∉ fw → has_trans n g fw p vis = Some r → trans_post [p] vis r.
Proof.
  induction n as [|n IH]; intros p vis r Hp H; simpl in H; [done|].
  destruct (decide (p ∈ vis)) as [Hv|Hv].
  { injection H as <-. split; [done|]. split; [done|]. intros _. split; [|done].
    intros d Hd. apply elem_of_list_singleton in Hd as ->. done. }
  apply trans_loop_post in H as (Hv1 & Ht & Hf); [|exact IH]. simpl in *.
  split; [set_solver|]. split.
  - intros Hr. destruct (Ht Hr) as (d & q & Hd & Hq & Hqf). exists p, q. split; [left|]. split; [|done].
    by apply rtc_l with d.
  - intros Hr. destruct (Hf Hr) as [Hf1 Hf2].
    assert (p ∈ r.2) as Hpr by (apply Hv1; set_solver).
    split; [intros d Hd; by apply elem_of_list_singleton in Hd as ->|].
    intros x y Hx Hn Hxy. destruct (decide (x = p)) as [->|Hne]; [by apply Hf1|]. apply (Hf2 x y); [done| |done].
    set_solver.
Qed.

(** The recursion never needs more depth than there are packages, and then some. *)
Lemma trans_loop_total rec ds : ∀ vis,
  (∀ d v, vis ⊆ v → ∃ b v', rec d v = Some (b, v') ∧ v ⊆ v') →
  ∃ b v', trans_loop rec fw ds vis = Some (b, v') ∧ vis ⊆ v'.
Proof.
  induction ds as [|d ds IH]; intros vis Hrec; simpl; [by exists false, vis|].
  destruct (decide (d ∈ fw)); [by exists true, vis|].
  destruct (Hrec d vis) as ([] & v & E & Hv); [done| |]; rewrite E; [by exists true, v|].
  destruct (IH v) as (b & v' & E' & Hv').
  { intros d' v' Hs. apply Hrec. by etrans. }
  exists b, v'. split; [done|]. by etrans.
Qed.

Lemma has_trans_total n : ∀ p vis, size (dom g ∖ vis) < n →
  ∃ b v, has_trans n g fw p vis = Some (b, v) ∧ vis ⊆ v.
Proof.
  induction n as [|n IH]; intros p vis Hs; [lia|]. simpl.
  destruct (decide (p ∈ vis)) as [Hv|Hv]; [by exists false, vis|].
  destruct (decide (p ∈ dom g)) as [Hp|Hp].
  - assert (size (dom g ∖ ({[p]} ∪ vis)) < size (dom g ∖ vis)) as Hlt.
    { apply subset_size. split; [set_solver|]. intros Hc. assert (p ∈ dom g ∖ ({[p]} ∪ vis)) as Hin by (apply Hc; set_solver). set_solver. }
    destruct (trans_loop_total (has_trans n g fw) (deps_of g p) ({[p]} ∪ vis)) as (b & v & E & Hv').
    { intros d v Hsub. apply IH.
      assert (size (dom g ∖ v) ≤ size (dom g ∖ ({[p]} ∪ vis))) by (apply subseteq_size; set_solver). lia. }
    exists b, v. split; [done|]. set_solver.
  - exists false, ({[p]} ∪ vis). apply not_elem_of_dom in Hp. unfold deps_of. rewrite Hp. simpl. split; [done|set_solver].
Qed.
End trans.

Lemma tc_rtc_head {A} (R : A → A → Prop) x y : tc R x y ↔ ∃ z, R x z ∧ rtc R z y.
Proof.
  split.
  - intros H. apply tc_rtc_l in H || idtac. destruct H as [x y H|x y z H1 H2]; [exists y; split; [done|apply rtc_refl]|].
    exists y. split; [done|]. by apply tc_rtc.
  - intros (z & Hz & Hr). apply rtc_tc in Hr as [->|Hr]; [by apply tc_once|]. by apply tc_l with z.
Qed.

Lemma closed_rtc {A} (R : A → A → Prop) (P : A → Prop) x y : (∀ x y, P x → R x y → P y) → rtc R x y → P x → P y.
Proof. intros Hc Hr. induction Hr as [|x y z Hxy Hr IH]; [done|]. intros Hx. apply IH. by eapply Hc. Qed.

Lemma depends_on_spec fuel g fw p : size (dom g) < fuel →
  ∃ b, depends_on fuel g fw p = Some b ∧ (b = true ↔ ∃ q, q ∈ fw ∧ tc (dep g) p q).
Proof.
  intros Hfuel. unfold depends_on.
  destruct (existsb _ (deps_of g p)) eqn:E.
  { exists true. split; [done|]. split; [intros _|done]. apply existsb_exists in E as (d & Hd & Hf).
    apply elem_of_list_In in Hd. apply bool_decide_eq_true in Hf. exists d. split; [done|]. by apply tc_once. }
  assert (∀ d, d ∈ deps_of g p → d ∉ fw) as Hno.
  { intros d Hd Hf. assert (existsb (λ d, bool_decide (d ∈ fw)) (deps_of g p) = true); [|congruence].
    apply existsb_exists. exists d. split; [by apply elem_of_list_In|]. by apply bool_decide_eq_true. }
  clear E. destruct (has_trans_total g fw fuel p ∅) as (b & v & E & _).
  { assert (size (dom g ∖ ∅) ≤ size (dom g)) by (apply subseteq_size; set_solver). lia. }
  exists b. rewrite E. split; [done|]. destruct fuel as [|fuel]; [lia|]. simpl in E.
  destruct (decide (p ∈ (∅ : gset string))) as [?|_]; [set_solver|].
  apply (trans_loop_post g) in E as (Hv & Ht & Hf); [|apply has_trans_post]. simpl in *. split.
  - intros ->. destruct (Ht eq_refl) as (d & q & Hd & Hr & Hq). exists q. split; [done|].
    apply tc_rtc_head. by exists d.
  - intros (q & Hq & Hr). destruct b; [done|]. exfalso. destruct (Hf eq_refl) as [Hf1 Hf2].
    apply tc_rtc_head in Hr as (d & Hd & Hr).
    assert (q ∉ fw ∧ q ∈ v) as [? _]; [|done].
    apply (closed_rtc (dep g) (λ q, q ∉ fw ∧ q ∈ v) d q); [|done|by apply Hf1].
    intros x y [_ Hx] Hxy. destruct (decide (x = p)) as [->|Hne]; [by apply Hf1|].
    apply (Hf2 x y); [done| |done]. set_solver.
Qed.

(** ** Imports pulled in *)
Section imp.
Context (avail : gmap string package) (processed : gset string) (incl : string → bool).

Definition elig (q : string) : Prop := q ∉ processed ∧ has_domain q = true ∧ incl q = true.
Definition pulls (p q : string) : Prop := ∃ pk, avail !! p = Some pk ∧ q ∈ pk_imports pk ∧ elig q.

Definition st_ok (st : gset string * list imported) : Prop :=
  NoDup (im_path <$> st.2) ∧ ∀ x, x ∈ st.1 ↔ x ∈ im_path <$> st.2.

Definition imp_post (is : list string) (st st' : gset string * list imported) : Prop :=
  st.1 ⊆ st'.1 ∧ (st_ok st → st_ok st') ∧
  (∀ x, x ∈ st'.1 → x ∈ st.1 ∨ ∃ q, q ∈ is ∧ elig q ∧ rtc pulls q x).

Definition imp_complete (is : list string) (st st' : gset string * list imported) : Prop :=
  (∀ q, q ∈ is → elig q → q ∈ st'.1) ∧
  (∀ x y, x ∈ st'.1 → x ∉ st.1 → pulls x y → y ∈ st'.1).

Lemma st_ok_add st q b : q ∉ st.1 → st_ok st → st_ok ({[q]} ∪ st.1, st.2 ++ [Imported q b]).
Proof.
  intros Hq [H1 H2]. unfold st_ok. simpl. rewrite fmap_app. simpl. split.
  - apply NoDup_app. split; [done|]. split; [|apply NoDup_singleton].
    intros x Hx ->%elem_of_list_singleton. apply Hq. by apply H2.
  - intros x. rewrite elem_of_union, elem_of_app, elem_of_singleton, elem_of_list_singleton, H2. tauto.
Qed.

Definition fi_step (k : nat) (pkg : package) := (λ (st : gset string * list imported) path,
        if decide (path ∈ processed ∨ path ∈ st.1) then st
        else if negb (has_domain path) then st
        else if incl path then
          match avail !! path with
          | Some p => find_imports k avail processed incl p ({[path]} ∪ st.1, st.2 ++ [Imported path None])
          | None => ({[path]} ∪ st.1, st.2 ++ [Imported path (Some (pk_path pkg))])
          end
        else st).

Lemma find_imports_S k pkg st :
  find_imports (S k) avail processed incl pkg st = foldl (fi_step k pkg) st (pk_imports pkg).
Proof. done. Qed.

Lemma fi_step_cases k pkg st q :
  (¬ elig q ∧ fi_step k pkg st q = st) ∨ (elig q ∧ q ∈ st.1 ∧ fi_step k pkg st q = st) ∨
  (elig q ∧ q ∉ st.1 ∧
     ((avail !! q = None ∧ fi_step k pkg st q = ({[q]} ∪ st.1, st.2 ++ [Imported q (Some (pk_path pkg))])) ∨
      ∃ p, avail !! q = Some p ∧ fi_step k pkg st q = find_imports k avail processed incl p ({[q]} ∪ st.1, st.2 ++ [Imported q None]))).
Proof.
  unfold fi_step, elig. destruct (decide (q ∈ processed ∨ q ∈ st.1)) as [Hd|Hd].
  - destruct (decide (q ∈ processed)) as [Hp|Hp]; [left; split; [by intros (? & _)|done]|].
    destruct Hd as [?|Hd]; [done|]. destruct (has_domain q) eqn:E1; [|left; split; [by intros (_ & ? & _)|done]].
    destruct (incl q) eqn:E2; [|left; split; [by intros (_ & _ & ?)|done]]. right; left. done.
  - destruct (has_domain q) eqn:E1; simpl; [|left; split; [by intros (_ & ? & _)|done]].
    destruct (incl q) eqn:E2; [|left; split; [by intros (_ & _ & ?)|done]].
    right; right. split; [repeat split; try done; intros ?; apply Hd; by left|].
    split; [intros ?; apply Hd; by right|].
    destruct (avail !! q) as [p|] eqn:E3; [right; by exists p|by left].
Qed.

Lemma fi_fold_post k pkg is : (∀ p st, imp_post (pk_imports p) st (find_imports k avail processed incl p st)) →
  ∀ st, imp_post is st (foldl (fi_step k pkg) st is).
Proof.
  intros IHk. induction is as [|q is IH]; intros st.
  { split; [done|]. split; [done|]. intros x Hx. by left. }
  simpl. destruct (IH (fi_step k pkg st q)) as (M & O & S). set (st2 := foldl _ _ is) in *.
  assert (imp_post [q] st (fi_step k pkg st q)) as (M1 & O1 & S1).
  { destruct (fi_step_cases k pkg st q) as [[He ->]|[(He & Hq & ->)|(He & Hq & [[Ha ->]|(p & Ha & ->)])]].
    - split; [done|]. split; [done|]. intros x Hx. by left.
    - split; [done|]. split; [done|]. intros x Hx. by left.
    - split; [simpl; set_solver|]. split; [by apply st_ok_add|]. intros x Hx. simpl in Hx.
      apply elem_of_union in Hx as [Hx|Hx]; [|by left]. apply elem_of_singleton in Hx as ->.
      right. exists q. split; [left|]. split; [done|apply rtc_refl].
    - destruct (IHk p ({[q]} ∪ st.1, st.2 ++ [Imported q None])) as (M2 & O2 & S2). simpl in *.
      split; [set_solver|]. split; [intros Ho; apply O2; by apply st_ok_add|].
      intros x Hx. destruct (S2 x Hx) as [Hx'|(q' & Hq' & He' & Hr)].
      + apply elem_of_union in Hx' as [Hx'|Hx']; [|by left]. apply elem_of_singleton in Hx' as ->.
        right. exists q. split; [left|]. split; [done|apply rtc_refl].
      + right. exists q. split; [left|]. split; [done|]. apply rtc_l with q'; [|done]. by exists p. }
  split; [by etrans|]. split; [by intros; apply O, O1|].
  intros x Hx. destruct (S x Hx) as [Hx'|(q' & Hq' & Hr)].
  - destruct (S1 x Hx') as [?|(q' & Hq' & Hr)]; [by left|]. right. exists q'. split; [|done].
    apply elem_of_list_singleton in Hq' as ->. left.
  - right. exists q'. split; [by right|done].
Qed.

Lemma find_imports_post k : ∀ p st, imp_post (pk_imports p) st (find_imports k avail processed incl p st).
Proof.
  induction k as [|k IH]; intros p st.
  - simpl. split; [done|]. split; [done|]. intros x Hx. by left.
  - rewrite find_imports_S. by apply fi_fold_post.
Qed.

Lemma fi_fold_complete k pkg is :
  (∀ p st, size (dom avail ∖ st.1) < k → imp_complete (pk_imports p) st (find_imports k avail processed incl p st)) →
  ∀ st, size (dom avail ∖ st.1) < S k → imp_complete is st (foldl (fi_step k pkg) st is).
Proof.
  intros IHk. induction is as [|q is IH]; intros st Hs.
  { split; [by intros ? ?%elem_of_nil|]. intros x y Hx Hn. done. }
  simpl.
  assert (imp_post [q] st (fi_step k pkg st q)) as (M1 & _).
  { apply (fi_fold_post k pkg [q] (find_imports_post k) st). }
  assert (imp_complete [q] st (fi_step k pkg st q)) as [C1 C2].
  { destruct (fi_step_cases k pkg st q) as [[He ->]|[(He & Hq & ->)|(He & Hq & [[Ha ->]|(p & Ha & ->)])]].
    - split; [|done]. intros x Hx ?. by apply elem_of_list_singleton in Hx as ->.
    - split; [|done]. intros x Hx ?. by apply elem_of_list_singleton in Hx as ->.
    - split; [intros x Hx _; apply elem_of_list_singleton in Hx as ->; simpl; set_solver|].
      intros x y Hx Hn (pk & Hpk & _). simpl in Hx. apply elem_of_union in Hx as [Hx|Hx]; [|done].
      apply elem_of_singleton in Hx as ->. congruence.
    - set (st1 := ({[q]} ∪ st.1, st.2 ++ [Imported q None])).
      assert (size (dom avail ∖ st1.1) < size (dom avail ∖ st.1)) as Hlt.
      { assert (q ∈ dom avail) as Hqa by (apply elem_of_dom; by eexists).
        apply subset_size. simpl. split; [set_solver|]. intros Hc.
        assert (q ∈ dom avail ∖ ({[q]} ∪ st.1)) as Hin by (apply Hc; set_solver). set_solver. }
      destruct (IHk p st1) as [D1 D2]; [lia|].
      destruct (find_imports_post k p st1) as (M2 & _). simpl in M2.
      split.
      + intros x Hx _. apply elem_of_list_singleton in Hx as ->. apply M2. set_solver.
      + intros x y Hx Hn Hxy. destruct (decide (x = q)) as [->|Hne].
        * destruct Hxy as (pk & Hpk & Hy & He'). rewrite Ha in Hpk. injection Hpk as <-. by apply D1.
        * apply (D2 x y); [done| |done]. simpl. set_solver. }
  assert (size (dom avail ∖ (fi_step k pkg st q).1) < S k) as Hs'.
  { assert (size (dom avail ∖ (fi_step k pkg st q).1) ≤ size (dom avail ∖ st.1)) by (apply subseteq_size; set_solver). lia. }
  destruct (IH _ Hs') as [E1 E2].
  destruct (fi_fold_post k pkg is (find_imports_post k) (fi_step k pkg st q)) as (M2 & _).
  split.
  - intros x Hx He. apply elem_of_cons in Hx as [->|Hx]; [|by apply E1]. apply M2, C1; [left|done].
  - intros x y Hx Hn Hxy. destruct (decide (x ∈ (fi_step k pkg st q).1)) as [Hi|Hi].
    + apply M2. by apply (C2 x y).
    + by apply (E2 x y).
Qed.

Lemma find_imports_complete k : ∀ p st, size (dom avail ∖ st.1) < k →
  imp_complete (pk_imports p) st (find_imports k avail processed incl p st).
Proof.
  induction k as [|k IH]; intros p st Hs; [lia|]. rewrite find_imports_S. by apply fi_fold_complete.
Qed.

Definition fi_top (k : nat) := (λ (st : gset string * list imported) path,
  match avail !! path with Some p => find_imports k avail processed incl p st | None => st end).

Lemma fi_top_step k st f :
  st.1 ⊆ (fi_top k st f).1 ∧ (st_ok st → st_ok (fi_top k st f)) ∧
  (∀ x, x ∈ (fi_top k st f).1 → x ∈ st.1 ∨ tc pulls f x) ∧
  (size (dom avail) < k → (∀ q, pulls f q → q ∈ (fi_top k st f).1) ∧
     ∀ x y, x ∈ (fi_top k st f).1 → x ∉ st.1 → pulls x y → y ∈ (fi_top k st f).1).
Proof.
  unfold fi_top. destruct (avail !! f) as [p|] eqn:E.
  - destruct (find_imports_post k p st) as (M & O & S). split; [done|]. split; [done|]. split.
    + intros x Hx. destruct (S x Hx) as [?|(q & Hq & He & Hr)]; [by left|]. right. apply tc_rtc_head.
      exists q. split; [by exists p|done].
    + intros Hk. destruct (find_imports_complete k p st) as [C1 C2].
      { assert (size (dom avail ∖ st.1) ≤ size (dom avail)) by (apply subseteq_size; set_solver). lia. }
      split; [|done]. intros q (pk & Hpk & Hq & He). rewrite E in Hpk. injection Hpk as <-. by apply C1.
  - split; [done|]. split; [done|]. split; [by left|]. intros _. split; [|done].
    intros q (pk & Hpk & _). congruence.
Qed.

Lemma fi_top_fold k order : ∀ st,
  st.1 ⊆ (foldl (fi_top k) st order).1 ∧ (st_ok st → st_ok (foldl (fi_top k) st order)) ∧
  (∀ x, x ∈ (foldl (fi_top k) st order).1 → x ∈ st.1 ∨ ∃ f, f ∈ order ∧ tc pulls f x) ∧
  (size (dom avail) < k → (∀ f q, f ∈ order → pulls f q → q ∈ (foldl (fi_top k) st order).1) ∧
     ∀ x y, x ∈ (foldl (fi_top k) st order).1 → x ∉ st.1 → pulls x y → y ∈ (foldl (fi_top k) st order).1).
Proof.
  induction order as [|f order IH]; intros st; simpl.
  - split; [done|]. split; [done|]. split; [by left|]. intros _. split; [by intros ? ? ?%elem_of_nil|done].
  - destruct (fi_top_step k st f) as (M1 & O1 & S1 & C1). destruct (IH (fi_top k st f)) as (M2 & O2 & S2 & C2).
    split; [by etrans|]. split; [auto|]. split.
    + intros x Hx. destruct (S2 x Hx) as [Hx'|(f' & Hf' & Ht)].
      * destruct (S1 x Hx') as [?|?]; [by left|]. right. exists f. split; [left|done].
      * right. exists f'. split; [by right|done].
    + intros Hk. destruct (C1 Hk) as [A1 B1]. destruct (C2 Hk) as [A2 B2]. split.
      * intros f' q Hf' Hq. apply elem_of_cons in Hf' as [->|Hf']; [|by eapply A2]. apply M2. by apply A1.
      * intros x y Hx Hn Hxy. destruct (decide (x ∈ (fi_top k st f).1)) as [Hi|Hi]; [|by apply (B2 x y)].
        apply M2. by apply (B1 x y).
Qed.

Lemma find_imported_ok k order : st_ok (find_imported k avail processed incl order).
Proof.
  apply (fi_top_fold k order (∅, [])). split; [constructor|]. intros x. split; [set_solver|by intros ?%elem_of_nil].
Qed.

Lemma find_imported_sound k order x : x ∈ (find_imported k avail processed incl order).1 → ∃ f, f ∈ order ∧ tc pulls f x.
Proof. intros Hx. destruct (fi_top_fold k order (∅, [])) as (_ & _ & S & _). destruct (S x Hx) as [?|?]; [set_solver|done]. Qed.

Lemma find_imported_complete k order x f : size (dom avail) < k → f ∈ order → tc pulls f x →
  x ∈ (find_imported k avail processed incl order).1.
Proof.
  intros Hk Hf Ht. destruct (fi_top_fold k order (∅, [])) as (_ & _ & _ & C). destruct (C Hk) as [A B].
  apply tc_rtc_head in Ht as (q & Hq & Hr).
  apply (closed_rtc pulls (λ x, x ∈ (find_imported k avail processed incl order).1) q x); [|done|by apply (A f)].
  intros a b Ha Hab. apply (B a b); [done|set_solver|done].
Qed.

Lemma pulls_elig f x : tc pulls f x → elig x.
Proof. intros H. apply tc_rtc_head in H as (q & (pk & _ & _ & He) & Hr). apply (closed_rtc pulls elig q x); [|done|done]. by intros a b _ (? & _ & _ & ?). Qed.

(** Even at a limit of one, direct imports of a framework package are collected. *)
Lemma find_imports_direct k p st q : q ∈ pk_imports p → elig q → q ∈ (find_imports (S k) avail processed incl p st).1.
Proof.
  rewrite find_imports_S. generalize (pk_imports p) as is. intros is. revert st. induction is as [|y is IH]; intros st Hq He; simpl; [by apply elem_of_nil in Hq|].
  apply elem_of_cons in Hq as [<-|Hq]; [|by apply IH].
  destruct (fi_fold_post k p is (find_imports_post k) (fi_step k p st q)) as (M & _). apply M.
  destruct (fi_step_cases k p st q) as [[? _]|[(_ & Hi & ->)|(_ & Hi & [[Ha ->]|(p' & Ha & ->)])]]; [done|done|simpl; apply elem_of_union; left; by apply elem_of_singleton|].
  destruct (find_imports_post k p' ({[q]} ∪ st.1, st.2 ++ [Imported q None])) as (M2 & _). apply M2. simpl. apply elem_of_union. left. by apply elem_of_singleton.
Qed.

Lemma find_imported_direct k order f q : f ∈ order → pulls f q → q ∈ (find_imported (S k) avail processed incl order).1.
Proof.
  unfold find_imported. fold (fi_top (S k)). generalize (∅ : gset string, [] : list imported) as st.
  induction order as [|y order IH]; intros st Hf Hp; [by apply elem_of_nil in Hf|]. simpl.
  apply elem_of_cons in Hf as [<-|Hf]; [|by apply IH].
  destruct (fi_top_fold (S k) order (fi_top (S k) st f)) as (M & _). apply M.
  destruct Hp as (pk & Hpk & Hq & He). unfold fi_top. rewrite Hpk. by apply find_imports_direct.
Qed.
End imp.
