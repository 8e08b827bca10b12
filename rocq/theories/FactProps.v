(** * C113: the facts recorded about external types. *)
From Coq Require Import Ascii Lia.
From stdpp Require Import base numbers list strings gmap.
From Verif Require Import StrLib StrSplit StrSub ExtModel FactModel.

(** ** Specification *)
(** A declared type of a package outside the module. *)
Definition external_decl (env : genv) (module : string) (i : nat) (d : gdecl) (path name : string) : Prop :=
  env !! i = Some d ∧ gd_pkg d = Some (path, name) ∧ (contains_byte "/" path = true ∨ contains_byte "." path = true) ∧ has_prefix module path = false.
(** The external types a type is made of, itself or inside what those are declared as. *)
Inductive made_of (env : genv) (module : string) : gtype → nat → Prop :=
| mo_self i d p n : external_decl env module i d p n → made_of env module (GNamed i) i
| mo_under i d p n j : external_decl env module i d p n → made_of env module (gd_under d) j → made_of env module (GNamed i) j
| mo_ptr t j : made_of env module t j → made_of env module (GPtr t) j
| mo_slice t j : made_of env module t j → made_of env module (GSlice t) j
| mo_arr n t j : made_of env module t j → made_of env module (GArr n t) j
| mo_key k v j : made_of env module k j → made_of env module (GMapT k v) j
| mo_val k v j : made_of env module v j → made_of env module (GMapT k v) j
| mo_chan t j : made_of env module t j → made_of env module (GChan t) j.
(** A method that encoding/json calls. *)
Definition marshals (d : gdecl) (name : string) : Prop := GMethod name [] [GSlice (GBasic "uint8"); GBasic "error"] ∈ gd_methods d.
(** What is known of a type. *)
Definition known_fact (d : gdecl) (f : efact) : Prop :=
  ef_underlying f = gd_text d ∧
  match ef_marshaler f with
  | MJSON => marshals d "MarshalJSON"
  | MText => marshals d "MarshalText" ∧ ¬ marshals d "MarshalJSON"
  | MNone => ¬ marshals d "MarshalText" ∧ ¬ marshals d "MarshalJSON"
  end.

(** ** Lemmas *)
Lemma has_marshaler_spec d name : has_marshaler d name = true ↔ marshals d name.
Proof.
  unfold has_marshaler, marshals. rewrite existsb_exists. split.
  - intros ([n ps rs] & Hin & H). apply andb_true_iff in H as [H1 H2]. apply bool_decide_eq_true in H1. cbn in H1. subst n. unfold is_marshaler_sig in H2. cbn in H2. apply andb_true_iff in H2 as [H2 H3]. apply bool_decide_eq_true in H2. subst ps.
    destruct rs as [|a [|b [|]]]; try done. apply andb_true_iff in H3 as [H3 H4]. apply bool_decide_eq_true in H3, H4. subst. by apply elem_of_list_In.
  - intros H. eexists. split; [by apply elem_of_list_In|]. cbn. rewrite bool_decide_true by done. done.
Qed.
Lemma fact_known d f : f = fact_of d ↔ known_fact d f.
Proof.
  unfold known_fact, fact_of, marshaler_kind. pose proof (has_marshaler_spec d "MarshalJSON") as HJ. pose proof (has_marshaler_spec d "MarshalText") as HT.
  destruct f as [m u]. cbn. destruct (has_marshaler d "MarshalJSON"), (has_marshaler d "MarshalText"); destruct HJ as [HJ1 HJ2], HT as [HT1 HT2]; (split; [intros H; injection H as -> ->|intros [-> H]]).
  all: try (split; [done|]; first [by apply HJ1|split; [by apply HT1|intros X; by apply HJ2 in X]|split; intros X; [by apply HT2 in X|by apply HJ2 in X]]).
  all: destruct m; [destruct H as [X Y]|destruct H as [X Y]|]; try done; exfalso; first [by apply Y, HJ1|by apply X, HT1|by apply HT2 in X|by apply HJ2 in H].
Qed.
Lemma is_external_spec path module : is_external path module = true ↔ (contains_byte "/" path = true ∨ contains_byte "." path = true) ∧ has_prefix module path = false.
Proof. unfold is_external. destruct (contains_byte "/" path), (contains_byte "." path), (has_prefix module path); cbn; naive_solver. Qed.
(** Those met without going into a declaration. *)
Fixpoint direct (env : genv) (module : string) (t : gtype) (j : nat) : Prop :=
  match t with
  | GNamed i => i = j ∧ ∃ d p n, external_decl env module i d p n
  | GPtr t | GSlice t | GArr _ t | GChan t => direct env module t j
  | GMapT k v => direct env module k j ∨ direct env module v j
  | GAlias _ _ | GBasic _ | GOther _ => False
  end.
Lemma direct_made env module t j : direct env module t j → made_of env module t j.
Proof.
  induction t; cbn; try done.
  - intros [-> (d & p & n & H)]. by eapply mo_self.
  - intros. apply mo_ptr. auto.
  - intros. apply mo_slice. auto.
  - intros. apply mo_arr. auto.
  - intros [?|?]; [apply mo_key|apply mo_val]; auto.
  - intros. apply mo_chan. auto.
Qed.
Lemma made_trans env module t i d p n j : made_of env module t i → external_decl env module i d p n → made_of env module (gd_under d) j → made_of env module t j.
Proof.
  intros H. revert d p n. induction H as [i d0 p0 n0 H|i d0 p0 n0 i' H0 H IH|? ? ? IH|? ? ? IH|? ? ? ? IH|? ? ? ? IH|? ? ? ? IH|? ? ? IH]; intros d p m Hd Hj.
  - by eapply mo_under.
  - eapply mo_under; [done|]. by eapply IH.
  - apply mo_ptr. by eapply IH.
  - apply mo_slice. by eapply IH.
  - apply mo_arr. by eapply IH.
  - apply mo_key. by eapply IH.
  - apply mo_val. by eapply IH.
  - apply mo_chan. by eapply IH.
Qed.
Lemma made_closed env module t (P : nat → Prop) : (∀ j, direct env module t j → P j) → (∀ i d p n j, P i → external_decl env module i d p n → direct env module (gd_under d) j → P j) → ∀ j, made_of env module t j → P j.
Proof.
  intros Ht Hc j H. revert Ht. induction H as [i d0 p0 n0 H|i d0 p0 n0 i' H0 H IH|? ? ? IH|? ? ? IH|? ? ? ? IH|? ? ? ? IH|? ? ? ? IH|? ? ? IH]; intros Ht; cbn in Ht; eauto 10.
Qed.
(** The whole of a run. *)
Definition writes (env : genv) (module : string) (i : nat) (k : string) (f : efact) : Prop := ∃ d p n, external_decl env module i d p n ∧ (k = qualify p (gd_name d) ∨ k = qualify n (gd_name d)) ∧ f = fact_of d.
Lemma run_spec env module depth : ∀ t st st', record_facts env module depth t st = Some st' →
  st.1 ⊆ st'.1 ∧
  (∀ j, direct env module t j → j ∈ st'.1) ∧
  (∀ i d p n j, i ∈ st'.1 → i ∉ st.1 → external_decl env module i d p n → direct env module (gd_under d) j → j ∈ st'.1) ∧
  (∀ i, i ∈ st'.1 → i ∉ st.1 → made_of env module t i) ∧
  (∀ k f, st'.2 !! k = Some f → st.2 !! k = Some f ∨ ∃ i, i ∈ st'.1 ∧ i ∉ st.1 ∧ writes env module i k f) ∧
  (∀ k, is_Some (st.2 !! k) → is_Some (st'.2 !! k)) ∧
  (∀ i k f, i ∈ st'.1 → i ∉ st.1 → writes env module i k f → ∃ i' f', i' ∈ st'.1 ∧ i' ∉ st.1 ∧ writes env module i' k f' ∧ st'.2 !! k = Some f').
Proof.
  assert (∀ (st : gset nat * gmap string efact) t, (∀ j, direct env module t j → j ∈ st.1) → st.1 ⊆ st.1 ∧ (∀ j, direct env module t j → j ∈ st.1) ∧ (∀ i d p n j, i ∈ st.1 → i ∉ st.1 → external_decl env module i d p n → direct env module (gd_under d) j → j ∈ st.1) ∧
    (∀ i, i ∈ st.1 → i ∉ st.1 → made_of env module t i) ∧ (∀ k f, st.2 !! k = Some f → st.2 !! k = Some f ∨ ∃ i, i ∈ st.1 ∧ i ∉ st.1 ∧ writes env module i k f) ∧ (∀ k, is_Some (st.2 !! k) → is_Some (st.2 !! k)) ∧ (∀ i k f, i ∈ st.1 → i ∉ st.1 → writes env module i k f → ∃ i' f', i' ∈ st.1 ∧ i' ∉ st.1 ∧ writes env module i' k f' ∧ st.2 !! k = Some f')) as Same by (intros st t H; split_and!; try done; auto).
  induction depth as [|depth IH]; intros t st st' H; [done|]. destruct t as [i|t|t|n t|k v|t|a t|b|o]; cbn [record_facts] in H.
  - destruct (env !! i) as [d|] eqn:Ei; [|injection H as <-; apply Same; intros j [_ (? & ? & ? & X & _)]; congruence].
    destruct (gd_pkg d) as [[path name]|] eqn:Ep; [|injection H as <-; apply Same; intros j [_ (? & ? & ? & X & Y & _)]; congruence].
    destruct (is_external path module) eqn:Ex; cbn [negb] in H; [|injection H as <-; apply Same; intros j [_ (d' & p' & n' & X & Y & Z)]; assert (is_external path module = true); [apply is_external_spec; assert (d' = d) by congruence; subst; rewrite Ep in Y; by injection Y as -> ->|congruence]].
    assert (external_decl env module i d path name) as Hd by (apply is_external_spec in Ex; done).
    destruct (decide (i ∈ st.1)) as [Hi|Hi]; [injection H as <-; apply Same; by intros j [-> _]|].
    apply IH in H as (S1 & S2 & S3 & S4 & S5 & S6 & S7). cbn [fst snd] in *. assert (i ∈ st'.1) as Hi' by (apply S1; set_solver). split_and!.
    + set_solver.
    + by intros j [<- _].
    + intros i' d' p' n' j H1 H2 H3 H4. destruct (decide (i' = i)) as [->|Ne]; [|eapply (S3 i'); try done; set_solver]. apply S2. destruct H3 as [H3 _]. congruence.
    + intros i' H1 H2. destruct (decide (i' = i)) as [->|Ne]; [by eapply mo_self|]. eapply mo_under; [done|]. apply S4; set_solver.
    + intros k f Hk. destruct (S5 _ _ Hk) as [Hs|(i' & H1 & H2 & H3)].
      * apply lookup_insert_Some in Hs as [[<- <-]|[_ Hs]]; [right; exists i; split_and!; try done; exists d, path, name; auto|]. apply lookup_insert_Some in Hs as [[<- <-]|[_ Hs]]; [right; exists i; split_and!; try done; exists d, path, name; auto|by left].
      * right. exists i'. split_and!; try done. set_solver.
    + intros k Hk. apply S6. destruct (decide (k = qualify name (gd_name d))) as [->|N1]; [by rewrite lookup_insert|rewrite lookup_insert_ne by done]. destruct (decide (k = qualify path (gd_name d))) as [->|N2]; [by rewrite lookup_insert|by rewrite lookup_insert_ne].
    + intros i' k f H1 H2 H3. destruct (decide (i' = i)) as [->|Ne].
      * assert (<[qualify name (gd_name d):=fact_of d]> (<[qualify path (gd_name d):=fact_of d]> st.2) !! k = Some (fact_of d)) as Ek.
        { destruct H3 as (d' & p' & n' & (X & Y & _) & Hk & _). assert (d' = d) by congruence. subst d'. rewrite Ep in Y. injection Y as <- <-.
          destruct (decide (k = qualify name (gd_name d))) as [->|N1]; [by rewrite lookup_insert|rewrite lookup_insert_ne by done]. destruct Hk as [->|?]; [by rewrite lookup_insert|done]. }
        assert (f = fact_of d) as ->. { destruct H3 as (d' & p' & n' & (X & _) & _ & ->). congruence. }
        destruct (S6 k) as [f' Ef']; [by eexists|]. destruct (S5 _ _ Ef') as [Hs|(i' & H4 & H5 & H6)]; [exists i, f'; split_and!; try done; congruence|exists i', f'; split_and!; try done; set_solver].
      * destruct (S7 i' k f) as (i2 & f2 & ? & ? & ? & ?); [done|set_solver|done|]. exists i2, f2. split_and!; try done. set_solver.
  - destruct (IH _ _ _ H) as (S1 & S2 & S3 & S4 & S5 & S6 & S7). split_and!; try done. intros i' H1 H2. apply mo_ptr. auto.
  - destruct (IH _ _ _ H) as (S1 & S2 & S3 & S4 & S5 & S6 & S7). split_and!; try done. intros i' H1 H2. apply mo_slice. auto.
  - destruct (IH _ _ _ H) as (S1 & S2 & S3 & S4 & S5 & S6 & S7). split_and!; try done. intros i' H1 H2. apply mo_arr. auto.
  - destruct (record_facts env module depth k st) as [st1|] eqn:E1; [|done]. apply IH in E1 as (A1 & A2 & A3 & A4 & A5 & A6 & A7), H as (B1 & B2 & B3 & B4 & B5 & B6 & B7). split_and!.
    + by transitivity st1.1.
    + intros j [Hj|Hj]; [by apply B1, A2|by apply B2].
    + intros i d p n j H1 H2 H3 H4. destruct (decide (i ∈ st1.1)) as [Hi|Hi]; [apply B1; by eapply (A3 i)|by eapply (B3 i)].
    + intros i H1 H2. destruct (decide (i ∈ st1.1)) as [Hi|Hi]; [apply mo_key; auto|apply mo_val; auto].
    + intros x f Hx. destruct (B5 _ _ Hx) as [Hs|(i & H1 & H2 & H3)]; [destruct (A5 _ _ Hs) as [?|(i & H1 & H2 & H3)]; [by left|right; exists i; split_and!; try done; by apply B1]|right; exists i; split_and!; try done; intros X; by apply H2, A1].
    + auto.
    + intros i x f H1 H2 H3. destruct (decide (i ∈ st1.1)) as [Hi|Hi]; [|destruct (B7 i x f H1 Hi H3) as (i2 & f2 & ? & G2 & ? & ?); exists i2, f2; split_and!; try done; intros X; by apply G2, A1].
      destruct (A7 i x f Hi H2 H3) as (i2 & f2 & G1 & G2 & G3 & G4). destruct (B6 x) as [f3 E3]; [by eexists|]. destruct (B5 _ _ E3) as [Hs|(i3 & F1 & F2 & F3)]; [exists i2, f3; split_and!; try done; [by apply B1|congruence]|exists i3, f3; split_and!; try done; intros X; by apply F2, A1].
  - destruct (IH _ _ _ H) as (S1 & S2 & S3 & S4 & S5 & S6 & S7). split_and!; try done. intros i' H1 H2. apply mo_chan. auto.
  - injection H as <-. by apply Same.
  - injection H as <-. by apply Same.
  - injection H as <-. by apply Same.
Qed.
Lemma unders_less env seen seen' : seen ⊆ seen' → unders env seen' ≤ unders env seen.
Proof.
  intros H. unfold unders. induction (map_to_list env) as [|[i d] l IH]; [done|]. cbn [sum_list_with fst snd]. destruct (decide (i ∈ seen)), (decide (i ∈ seen')); try lia. set_solver.
Qed.
Lemma unders_take env seen i d : env !! i = Some d → i ∉ seen → S (gsize (gd_under d)) + unders env ({[i]} ∪ seen) ≤ unders env seen.
Proof.
  intros Hd Hi. unfold unders. assert ((i, d) ∈ map_to_list env) as Hin by (by apply elem_of_map_to_list). pose proof (NoDup_fst_map_to_list env) as Nd. revert Hin Nd. generalize (map_to_list env). induction l as [|[j e] l IH]; intros Hin Nd; [by apply elem_of_nil in Hin|].
  cbn [sum_list_with fst snd]. rewrite fmap_cons in Nd. apply NoDup_cons in Nd as [N1 N2]. cbn in N1. apply elem_of_cons in Hin as [E|Hin].
  - injection E as <- <-. rewrite decide_True by set_solver. rewrite decide_False by done.
    assert (sum_list_with (λ p : nat * gdecl, if decide (p.1 ∈ ({[i]} ∪ seen : gset nat)) then 0 else S (gsize (gd_under p.2))) l ≤ sum_list_with (λ p : nat * gdecl, if decide (p.1 ∈ seen) then 0 else S (gsize (gd_under p.2))) l); [|lia].
    clear. induction l as [|[j e] l IH]; [done|]. cbn [sum_list_with fst snd]. destruct (decide (j ∈ seen)), (decide (j ∈ ({[i]} ∪ seen : gset nat))); try lia. set_solver.
  - specialize (IH Hin N2). destruct (decide (j ∈ seen)), (decide (j ∈ ({[i]} ∪ seen : gset nat))); try lia. set_solver.
Qed.
Lemma run_ends env module depth : ∀ t st, gsize t + unders env st.1 < depth → is_Some (record_facts env module depth t st).
Proof.
  induction depth as [|depth IH]; intros t st H; [lia|]. destruct t as [i|t|t|n t|k v|t|a t|b|o]; cbn [record_facts gsize] in *; try (by eexists); try (apply IH; lia).
  - destruct (env !! i) as [d|] eqn:Ei; [|by eexists]. destruct (gd_pkg d) as [[path name]|]; [|by eexists]. destruct (negb (is_external path module)); [by eexists|]. destruct (decide (i ∈ st.1)) as [Hi|Hi]; [by eexists|]. apply IH. cbn [fst]. pose proof (unders_take env st.1 i d Ei Hi). lia.
  - destruct (IH k st) as [st1 E1]; [lia|]. rewrite E1. apply IH. apply run_spec in E1 as (S1 & _). pose proof (unders_less env st.1 st1.1 S1). lia.
Qed.
Lemma record_type_run env module t facts : ∃ seen, record_facts env module (S (gsize t + unders env ∅)) t (∅, facts) = Some (seen, record_type env module t facts).
Proof.
  unfold record_type. destruct (run_ends env module (S (gsize t + unders env ∅)) t (∅, facts)) as [[seen f] E]; [cbn; lia|]. rewrite E. by exists seen.
Qed.
Lemma seen_made env module t facts depth seen f : record_facts env module depth t (∅, facts) = Some (seen, f) → ∀ i, i ∈ seen ↔ made_of env module t i.
Proof.
  intros H. apply run_spec in H as (_ & S2 & S3 & S4 & _). cbn [fst snd] in *. intros i. split; [intros Hi; apply S4; [done|set_solver]|]. apply (made_closed env module t (.∈ seen)); [done|]. intros i' d p n j Hi He Hj. by eapply S3.
Qed.

(** ** Theorems *)
(** C113a: after a type has been looked at, under both names of each external type it is made of there is the fact of one such type of the name. *)
Theorem C113_recorded env module t facts i d p n k : made_of env module t i → external_decl env module i d p n → k = p +:+ "." +:+ gd_name d ∨ k = n +:+ "." +:+ gd_name d →
  ∃ f j e p' n', record_type env module t facts !! k = Some f ∧ made_of env module t j ∧ external_decl env module j e p' n' ∧ (k = p' +:+ "." +:+ gd_name e ∨ k = n' +:+ "." +:+ gd_name e) ∧ known_fact e f.
Proof.
  intros H Hd Hk. destruct (record_type_run env module t facts) as [seen E]. pose proof (seen_made _ _ _ _ _ _ _ E) as K. apply run_spec in E as (_ & _ & _ & _ & _ & _ & S7). cbn [fst snd] in *.
  destruct (S7 i k (fact_of d)) as (j & f & Hj & _ & (e & p' & n' & He & Hk' & ->) & Ef); [by apply K|set_solver|exists d, p, n; done|]. exists (fact_of e), j, e, p', n'. split_and!; try done; [by apply K|by apply fact_known].
Qed.
(** C113b: nothing else is changed, and each new fact is that of such a type. *)
Theorem C113_only env module t facts k f : record_type env module t facts !! k = Some f →
  facts !! k = Some f ∨ ∃ i d p n, made_of env module t i ∧ external_decl env module i d p n ∧ (k = p +:+ "." +:+ gd_name d ∨ k = n +:+ "." +:+ gd_name d) ∧ known_fact d f.
Proof.
  intros H. destruct (record_type_run env module t facts) as [seen E]. pose proof (seen_made _ _ _ _ _ _ _ E) as K. apply run_spec in E as (_ & _ & _ & _ & S5 & _). cbn [fst snd] in *.
  destruct (S5 _ _ H) as [?|(i & Hi & _ & d & p & n & Hd & Hk & ->)]; [by left|]. right. exists i, d, p, n. split_and!; try done; [by apply K|by apply fact_known].
Qed.
Theorem C113_kept env module t facts k f : facts !! k = Some f → (∀ i d p n, made_of env module t i → external_decl env module i d p n → k ≠ p +:+ "." +:+ gd_name d ∧ k ≠ n +:+ "." +:+ gd_name d) → record_type env module t facts !! k = Some f.
Proof.
  intros H Hn. destruct (record_type_run env module t facts) as [seen E]. apply run_spec in E as (_ & _ & _ & _ & _ & S6 & _). cbn [fst snd] in S6. destruct (S6 k) as [f' E']; [by eexists|]. rewrite E'. destruct (C113_only _ _ _ _ _ _ E') as [X|(i & d & p & n & Hm & Hd & Hk & _)]; [congruence|]. destruct (Hn i d p n Hm Hd) as [X Y]. by destruct Hk.
Qed.
(** C113c: a name that only one external type goes by has the fact of that type, if one of the fields is made of it, in whatever order they come; and has none otherwise. *)
Theorem C113_fields env module ts i d p n k : external_decl env module i d p n → k = p +:+ "." +:+ gd_name d ∨ k = n +:+ "." +:+ gd_name d →
  (∀ j e p' n', external_decl env module j e p' n' → k = p' +:+ "." +:+ gd_name e ∨ k = n' +:+ "." +:+ gd_name e → j = i) →
  ∀ f, record_fields env module ts !! k = Some f ↔ (∃ t, t ∈ ts ∧ made_of env module t i) ∧ known_fact d f.
Proof.
  intros Hd Hk Hu f0. rewrite <- fact_known. unfold record_fields.
  assert (∀ ts facts, (∀ f, facts !! k = Some f → f = fact_of d) → ∀ f, fold_left (λ f t, record_type env module t f) ts facts !! k = Some f ↔ ((∃ t, t ∈ ts ∧ made_of env module t i) ∨ is_Some (facts !! k)) ∧ f = fact_of d) as K.
  { clear f0 ts. induction ts as [|u ts IH]; intros facts Hf f; cbn [fold_left].
    - split; [intros H; split; [by right; eexists|by apply Hf]|]. intros [[(t & X & _)|[g Hg]] ->]; [by apply elem_of_nil in X|]. rewrite Hg. f_equal. by apply Hf.
    - assert (∀ f, record_type env module u facts !! k = Some f → f = fact_of d) as Kf.
      { intros g [?|(j & e & p' & n' & Hm' & Hd' & Hk' & Hg)]%C113_only; [by apply Hf|]. assert (j = i) as -> by (by eapply Hu). destruct Hd' as [X _], Hd as [Y _]. assert (e = d) as -> by congruence. by apply fact_known. }
      rewrite IH by done. assert (is_Some (record_type env module u facts !! k) ↔ made_of env module u i ∨ is_Some (facts !! k)) as Ks.
      { split.
        - intros [g Hg]. destruct (C113_only _ _ _ _ _ _ Hg) as [X|(j & e & p' & n' & Hm' & Hd' & Hk' & _)]; [right; by eexists|]. left. by rewrite <- (Hu j e p' n').
        - intros [Hm|Hs].
          + destruct (C113_recorded env module u facts i d p n k Hm Hd Hk) as (g & _ & _ & _ & _ & Hg & _). by eexists.
          + destruct (record_type_run env module u facts) as [seen E]. apply run_spec in E as (_ & _ & _ & _ & _ & S6 & _). by apply S6. }
      rewrite Ks. split; intros [H ->]; (split; [|done]).
      + destruct H as [(t & ? & ?)|[?|?]]; [left; exists t; split; [by right|done]|left; exists u; split; [by left|done]|by right].
      + destruct H as [(t & [->|?]%elem_of_cons & ?)|?]; [by right; left|left; by exists t|by right; right]. }
  rewrite K by (intros f; by rewrite lookup_empty). rewrite lookup_empty. split; [intros [[?|[? ?]] ->]; done|intros [? ->]; split; [by left|done]].
Qed.
(** C113d: what an external type is documented as: a string if it has a text marshaler only, a string with a note if it marshals itself, what it is declared
    as if that is basic. *)
Theorem C113_documented env module ts primitive prim i d p n t : t ∈ ts → made_of env module t i → external_decl env module i d p n →
  (∀ j e p' n', external_decl env module j e p' n' → p +:+ "." +:+ gd_name d = p' +:+ "." +:+ gd_name e ∨ p +:+ "." +:+ gd_name d = n' +:+ "." +:+ gd_name e → j = i) →
  let go := p +:+ "." +:+ gd_name d in let r := resolve_external primitive prim [] (record_fields env module ts) go in
  has_prefix "[" go = false → has_prefix "*" go = false → has_prefix "map[" go = false → well_known !! go = None → well_known !! short_type_name go = None →
  (marshals d "MarshalJSON" → r = Some (ESch "string" "" low_confidence_note "")) ∧
  (marshals d "MarshalText" → ¬ marshals d "MarshalJSON" → r = Some (ESch "string" "" "" "")) ∧
  (¬ marshals d "MarshalText" → ¬ marshals d "MarshalJSON" → r = if bool_decide (gd_text d ≠ "" ∧ gd_text d ≠ go ∧ gd_text d ≠ short_type_name go) && primitive (gd_text d) then Some (prim (gd_text d)) else None).
Proof.
  intros Ht Hm Hd Hu go r H1 H2 H3 W1 W2. assert (record_fields env module ts !! go = Some (fact_of d)) as Ef. { apply (C113_fields env module ts i d p n go Hd); [by left|done|]. split; [by exists t|by apply fact_known]. }
  assert (known_fact d (fact_of d)) as [_ Kf] by (by apply fact_known). unfold r, resolve_external. rewrite H1, H2, H3. cbn [orb config_has existsb]. rewrite W1, W2, Ef. unfold fact_of in *. cbn [ef_marshaler ef_underlying] in *. split_and!.
  - intros HJ. destruct (marshaler_kind d); [by destruct Kf|by destruct Kf|done].
  - intros HT HJ. destruct (marshaler_kind d); [by destruct Kf|done|done].
  - intros HT HJ. destruct (marshaler_kind d); [|by destruct Kf|done]. assert (bool_decide (gd_text d ≠ "" ∧ gd_text d ≠ go ∧ gd_text d ≠ short_type_name go) = negb (bool_decide (gd_text d = "")) && negb (bool_decide (gd_text d = go)) && negb (bool_decide (gd_text d = short_type_name go))) as ->; [|done].
    clear. repeat case_bool_decide; cbn; tauto.
Qed.
(** C113e: what is recorded does not depend on how the fields are ordered, if no two external types share a name. *)
Theorem C113_order env module ts us : ts ≡ₚ us → (∀ i d p n j e p' n', external_decl env module i d p n → external_decl env module j e p' n' →
    p +:+ "." +:+ gd_name d = p' +:+ "." +:+ gd_name e ∨ p +:+ "." +:+ gd_name d = n' +:+ "." +:+ gd_name e ∨ n +:+ "." +:+ gd_name d = n' +:+ "." +:+ gd_name e → i = j) →
  record_fields env module ts = record_fields env module us.
Proof.
  intros Hp Hu. assert (∀ ts us k f, ts ≡ₚ us → record_fields env module ts !! k = Some f → record_fields env module us !! k = Some f) as K.
  { clear ts us Hp. intros ts us k f Hp H. assert (∃ i d p n, external_decl env module i d p n ∧ (k = p +:+ "." +:+ gd_name d ∨ k = n +:+ "." +:+ gd_name d)) as (i & d & p & n & Hd & Hk).
    { revert H. unfold record_fields. assert (∀ facts, fold_left (λ f t, record_type env module t f) ts facts !! k = Some f → facts !! k = Some f ∨ ∃ i d p n, external_decl env module i d p n ∧ (k = p +:+ "." +:+ gd_name d ∨ k = n +:+ "." +:+ gd_name d)) as X.
      { clear. induction ts as [|t ts IH]; intros facts H; cbn [fold_left] in H; [by left|]. destruct (IH _ H) as [[?|(i & d & p & n & _ & ? & ? & _)]%C113_only|?]; [by left|right; by exists i, d, p, n|by right]. }
      intros [Y|?]%X; [by rewrite lookup_empty in Y|done]. }
    assert (∀ j e p' n', external_decl env module j e p' n' → k = p' +:+ "." +:+ gd_name e ∨ k = n' +:+ "." +:+ gd_name e → j = i) as Hu'.
    { intros j e p' n' He Hk'. destruct Hk as [->| ->], Hk' as [E|E]; [symmetry; eapply (Hu i d p n j e p' n'); auto|symmetry; eapply (Hu i d p n j e p' n'); auto|eapply (Hu j e p' n' i d p n); auto|symmetry; eapply (Hu i d p n j e p' n'); auto]. }
    destruct (proj1 (C113_fields env module ts i d p n k Hd Hk Hu' f) H) as [(t & Ht & Hm) Hf]. apply (C113_fields env module us i d p n k Hd Hk Hu'). split; [|done]. exists t. by rewrite <- Hp. }
  apply map_eq. intros k. destruct (record_fields env module ts !! k) as [f|] eqn:E1; [symmetry; by eapply K|]. destruct (record_fields env module us !! k) as [f|] eqn:E2; [|done]. apply (K us ts) in E2; [congruence|done].
Qed.
Print Assumptions C113_recorded. Print Assumptions C113_only. Print Assumptions C113_kept. Print Assumptions C113_fields. Print Assumptions C113_documented. Print Assumptions C113_order.

(** ** Cases *)
Definition text_method : gmethod := GMethod "MarshalText" [] [GSlice (GBasic "uint8"); GBasic "error"].
Definition ulid : gdecl := GDecl (Some ("github.com/oklog/ulid", "ulid")) "ULID" [] (GArr 16 (GBasic "uint8")) "[16]byte" [text_method].
Definition ids : gdecl := GDecl (Some ("github.com/x/list", "list")) "IDs" [] (GSlice (GNamed 0)) "[]github.com/oklog/ulid.ULID" [].
Definition loop_decl : gdecl := GDecl (Some ("github.com/x/list", "list")) "Loop" [] (GSlice (GNamed 2)) "[]github.com/x/list.Loop" [].
Definition page_decl : gdecl := GDecl (Some ("ex.com/app", "app")) "Page" [GNamed 0] (GOther "struct{...}") "struct{...}" [].
Definition env1 : genv := {[0 := ulid; 1 := ids; 2 := loop_decl; 3 := page_decl]}.
Example C113_case : record_fields env1 "ex.com/app" [GPtr (GNamed 1); GMapT (GBasic "string") (GNamed 2)] !! "github.com/oklog/ulid.ULID" = Some (EFact MText "[16]byte") ∧
  made_of env1 "ex.com/app" (GPtr (GNamed 1)) 0 ∧ external_decl env1 "ex.com/app" 0 ulid "github.com/oklog/ulid" "ulid" ∧ is_Some (record_fields env1 "ex.com/app" [GMapT (GBasic "string") (GNamed 2)] !! "list.Loop").
Proof.
  assert (external_decl env1 "ex.com/app" 0 ulid "github.com/oklog/ulid" "ulid") as H by (split_and!; [done|done|by left|done]). split_and!.
  - by vm_compute.
  - apply mo_ptr. eapply (mo_under _ _ 1 ids "github.com/x/list" "list"); [split_and!; [done|done|by left|done]|]. apply mo_slice. by eapply mo_self.
  - done.
  - eexists. by vm_compute.
Qed.
Example C113_names_case i d p n j e p' n' : external_decl env1 "ex.com/app" i d p n → external_decl env1 "ex.com/app" j e p' n' →
  p +:+ "." +:+ gd_name d = p' +:+ "." +:+ gd_name e ∨ p +:+ "." +:+ gd_name d = n' +:+ "." +:+ gd_name e ∨ n +:+ "." +:+ gd_name d = n' +:+ "." +:+ gd_name e → i = j.
Proof.
  assert (∀ i d p n, external_decl env1 "ex.com/app" i d p n → (i, d, p, n) = (0, ulid, "github.com/oklog/ulid", "ulid") ∨ (i, d, p, n) = (1, ids, "github.com/x/list", "list") ∨ (i, d, p, n) = (2, loop_decl, "github.com/x/list", "list")) as K.
  { clear. intros i d p n (H & P & _ & M). unfold env1 in H. repeat (apply lookup_insert_Some in H as [[<- <-]|[_ H]]; [injection P as <- <-; auto|]). apply lookup_singleton_Some in H as [<- <-]. injection P as <- <-. done. }
  intros [H|[H|H]]%K [H'|[H'|H']]%K E; injection H as -> -> -> ->; injection H' as -> -> -> ->; try done; exfalso; destruct E as [E|[E|E]]; vm_compute in E; discriminate.
Qed.
Example C113_documented_case : resolve_external (λ _, false) (λ s, ESch s "" "" "") [] (record_fields env1 "ex.com/app" [GPtr (GNamed 1)]) "github.com/oklog/ulid.ULID" = Some (ESch "string" "" "" "").
Proof. by vm_compute. Qed.
(** C113f: a type of the module is documented as the external type of the same short name. *)
Theorem C113_namesake_refuted : ∃ env ts d, env !! 1 = Some d ∧ gd_pkg d = Some ("ex.com/app/ulid", "ulid") ∧ gd_name d = "ULID" ∧ gd_methods d = [] ∧ gd_text d = "struct{...}" ∧
  resolve_external (λ _, false) (λ s, ESch s "" "" "") [] (record_fields env "ex.com/app" ts) "ex.com/app/ulid.ULID" = Some (ESch "string" "" "" "").
Proof. exists {[0 := ulid; 1 := GDecl (Some ("ex.com/app/ulid", "ulid")) "ULID" [] (GOther "struct{...}") "struct{...}" []]}, [GNamed 0; GNamed 1], (GDecl (Some ("ex.com/app/ulid", "ulid")) "ULID" [] (GOther "struct{...}") "struct{...}" []). split_and!; [done..|by vm_compute]. Qed.
(** C113g: of two external types of the same short name the later is recorded under it. *)
Theorem C113_short_name_refuted : ∃ env a b k, record_fields env "ex.com/app" [GNamed a; GNamed b] !! k ≠ record_fields env "ex.com/app" [GNamed b; GNamed a] !! k ∧ k = "ulid.ULID".
Proof. exists {[0 := ulid; 1 := GDecl (Some ("github.com/y/ulid", "ulid")) "ULID" [] (GBasic "string") "string" []]}, 0, 1, "ulid.ULID". split; [|done]. intros E. vm_compute in E. discriminate. Qed.
(** C113h: a package outside the module whose path starts with the same text is taken as inside; a package of the standard library with a slash is taken as
    external. *)
Theorem C113_prefix_refuted : ∃ env, env !! 0 = Some (GDecl (Some ("ex.com/application", "application")) "ID" [] (GBasic "string") "string" [text_method]) ∧ record_fields env "ex.com/app" [GNamed 0] = ∅.
Proof. exists {[0 := GDecl (Some ("ex.com/application", "application")) "ID" [] (GBasic "string") "string" [text_method]]}. split; [done|]. by vm_compute. Qed.
Theorem C113_standard_refuted : is_external "net/netip" "ex.com/app" = true ∧ is_external "time" "ex.com/app" = false.
Proof. by vm_compute. Qed.
(** C113i: nothing is recorded about a type behind an alias, or given as a type argument. *)
Theorem C113_alias_refuted : record_fields env1 "ex.com/app" [GAlias "ID" (GNamed 0)] = ∅ ∧ is_Some (record_fields env1 "ex.com/app" [GNamed 0] !! "github.com/oklog/ulid.ULID").
Proof. split; [by vm_compute|]. eexists. by vm_compute. Qed.
Theorem C113_argument_refuted : ∃ d, env1 !! 3 = Some d ∧ gd_args d = [GNamed 0] ∧ record_fields env1 "ex.com/app" [GNamed 3] = ∅.
Proof. exists page_decl. split_and!; [done|done|by vm_compute]. Qed.
Print Assumptions C113_namesake_refuted. Print Assumptions C113_short_name_refuted. Print Assumptions C113_prefix_refuted. Print Assumptions C113_standard_refuted. Print Assumptions C113_alias_refuted. Print Assumptions C113_argument_refuted.
