(** * C101, C102: the assignments a function records, and those visible at a call. *)
From Coq Require Import Ascii ZArith Lia.
From stdpp Require Import sorting.
From stdpp Require Import base numbers list strings gmap.
From Verif Require Import StrLib SecProps RecordModel.

(** ** Specification *)
(** A node of a body, and one not in a function literal. *)
Inductive inside : bnode → bnode → Prop :=
| inside_self n : inside n n
| inside_kid n k d : k ∈ b_kids n → inside k d → inside n d.
Inductive outside_lits : bnode → bnode → Prop :=
| out_self n : b_kind n ≠ KLit → outside_lits n n
| out_kid n k d : b_kind n ≠ KLit → k ∈ b_kids n → outside_lits k d → outside_lits n d.
(** The i-th name of a statement gets the value of [r], of which result [ix]: several names share the call that is the only value. *)
Definition gets (s : astmt) (i : nat) (l : lside) (r : rside) (ix : nat) : Prop :=
  st_lhs s !! i = Some l ∧
  ((st_rhs s = [r] ∧ 1 < length (st_lhs s) ∧ is_Some (rs_call r) ∧ ix = i) ∨
   (¬ (∃ r', st_rhs s = [r'] ∧ 1 < length (st_lhs s) ∧ is_Some (rs_call r')) ∧ st_rhs s !! i = Some r ∧ ix = 0)).
(** What is recorded for it. *)
Definition noted (s : astmt) (i : nat) (a : rasn) : Prop :=
  ∃ l r ix, gets s i l r ix ∧ ra_pos a = st_pos s ∧ ra_value a = rs_value r ∧
    match l with
    | LIdent n => n ≠ "_" ∧ st_fn s ≠ "" ∧ ra_var a = n ∧ ra_fn a = st_fn s ∧ ra_type a = rs_type r ∧
        match rs_call r with Some c => ra_callee a = c ∧ ra_index a = ix | None => ra_callee a = ("", "") ∧ ra_index a = 0 end
    | LSel t ty => ra_var a = t ∧ ra_fn a = "" ∧ ra_type a = ty ∧ ra_callee a = ("", "") ∧ ra_index a = 0
    | LIndex t => ra_var a = t ∧ ra_fn a = "" ∧ ra_type a = "index" ∧ ra_callee a = ("", "") ∧ ra_index a = 0
    | LRaw t => ra_var a = t ∧ ra_fn a = "" ∧ ra_type a = "raw" ∧ ra_callee a = ("", "") ∧ ra_index a = 0
    end.
(** An assignment of a body, or a variable declared there with a value of its own. *)
Definition assigned_in (body : bnode) (s : astmt) : Prop := ∃ n, inside body n ∧ b_kind n = KAssign s.
Definition declared_in (body : bnode) (s : astmt) : Prop :=
  ∃ n l sp i name p v, inside body n ∧ b_kind n = KVar l ∧ sp ∈ l ∧ vs_names sp !! i = Some (name, p) ∧ name ≠ "_" ∧ vs_values sp !! i = Some v ∧ s = AStmt "=" (vs_fn sp) p [LIdent name] [v].

(** ** Proofs *)
Lemma bnode_kids (P : bnode → Prop) : (∀ k ks, (∀ c, c ∈ ks → P c) → P (BNode k ks)) → ∀ n, P n.
Proof.
  intros H. fix IH 1. intros [k ks]. apply H. induction ks as [|c ks IHk].
  - clear IH. intros c Hc. by apply elem_of_nil in Hc.
  - pose proof (IH c) as Hc. clear IH. intros c' Hc'. apply elem_of_cons in Hc' as [->|Hc']; [exact Hc|exact (IHk c' Hc')].
Qed.
Lemma stmts_eq d n : stmts d n = stmts_here d (b_kind n) ++ concat (stmts d <$> b_kids n).
Proof. destruct n as [k ks]. cbn [stmts b_kind b_kids]. f_equal. induction ks as [|c ks IH]; [done|]. cbn. by rewrite IH. Qed.
Lemma returns_eq n : returns n = match b_kind n with KLit => [] | KReturn ((_ :: _) as l) => l :: concat (returns <$> b_kids n) | _ => concat (returns <$> b_kids n) end.
Proof.
  destruct n as [k ks]. cbn [returns b_kind b_kids].
  assert (E : ∀ ks, (fix all (ks : list bnode) := match ks with [] => [] | c :: ks => returns c ++ all ks end) ks = concat (returns <$> ks)). { clear. induction ks as [|c ks IH]; [done|]. cbn. by rewrite IH. }
  rewrite E. done.
Qed.
Lemma right_of_spec s i l r ix : st_lhs s !! i = Some l → right_of s i = Some (r, ix) ↔ gets s i l r ix.
Proof.
  intros Hl. unfold right_of, gets.
  assert (G : (¬ (∃ r', st_rhs s = [r'] ∧ 1 < length (st_lhs s) ∧ is_Some (rs_call r'))) → (λ r, (r, 0)) <$> (st_rhs s !! i) = Some (r, ix) ↔ st_lhs s !! i = Some l ∧ ((st_rhs s = [r] ∧ 1 < length (st_lhs s) ∧ is_Some (rs_call r) ∧ ix = i) ∨ (¬ (∃ r', st_rhs s = [r'] ∧ 1 < length (st_lhs s) ∧ is_Some (rs_call r')) ∧ st_rhs s !! i = Some r ∧ ix = 0))).
  { intros N. rewrite fmap_Some. split.
    - intros (r' & Hr & E). assert (r' = r ∧ ix = 0) as [-> ->] by (split; congruence). split; [done|]. by right.
    - intros [_ [(H1 & H2 & H3 & _)|(_ & Hr & ->)]]; [destruct N; by exists r|by exists r]. }
  destruct (st_rhs s) as [|r0 [|r1 rs]] eqn:E.
  - apply G. intros (r' & ? & _). done.
  - destruct (decide (1 < length (st_lhs s) ∧ is_Some (rs_call r0))) as [[H1 H2]|N].
    + split.
      * intros Q. assert (r0 = r ∧ i = ix) as [<- <-] by (split; congruence). split; [done|]. by left.
      * intros [_ [(H & _ & _ & ->)|(N & _)]]; [congruence|]. destruct N. by exists r0.
    + apply G. intros (r' & Er & H1 & H2). apply N. assert (r' = r0) as -> by congruence. done.
  - apply G. intros (r' & ? & _). done.
Qed.
Lemma record_at_spec s i a : record_at s i = Some a ↔ noted s i a.
Proof.
  unfold record_at, noted. split.
  - intros H. destruct (right_of s i) as [[r ix]|] eqn:R; [|done]. cbn [mbind option_bind] in H. destruct (st_lhs s !! i) as [l|] eqn:L; [|done]. cbn [mbind option_bind] in H. apply (right_of_spec s i l) in R; [|done]. exists l, r, ix. split; [done|].
    destruct l as [n|t ty|t|t]; [|injection H as <-; done..].
    destruct (decide (n = "_")); [done|]. destruct (decide (st_fn s = "")); [done|]. injection H as <-. cbn. by destruct (rs_call r).
  - intros (l & r & ix & Hg & Hp & Hv & Hm). pose proof (proj1 Hg) as Hl. apply right_of_spec in Hg; [|done]. rewrite Hg. cbn [mbind option_bind]. rewrite Hl. cbn [mbind option_bind]. destruct a as [av af at_ ap aval ac ai]. cbn in *.
    destruct l as [n|t ty|t|t].
    + destruct Hm as (N1 & N2 & -> & -> & -> & Hc). rewrite decide_False, decide_False by done. subst. destruct (rs_call r) as [c|]; destruct Hc as [-> ->]; done.
    + destruct Hm as (-> & -> & -> & -> & ->). by subst.
    + destruct Hm as (-> & -> & -> & -> & ->). by subst.
    + destruct Hm as (-> & -> & -> & -> & ->). by subst.
Qed.
Lemma process_spec s a : a ∈ process_assignment s ↔ ∃ i, noted s i a.
Proof.
  unfold process_assignment. rewrite elem_of_list_omap. split.
  - intros (i & _ & H). exists i. by apply record_at_spec.
  - intros [i H]. exists i. split; [|by apply record_at_spec]. apply elem_of_seq. destruct H as (l & r & ix & [Hl _] & _). apply lookup_lt_Some in Hl. lia.
Qed.
Lemma synth_spec sp s : s ∈ synths sp ↔ ∃ i name p v, vs_names sp !! i = Some (name, p) ∧ name ≠ "_" ∧ vs_values sp !! i = Some v ∧ s = AStmt "=" (vs_fn sp) p [LIdent name] [v].
Proof.
  unfold synths. rewrite elem_of_list_omap. unfold synth. split.
  - intros (i & _ & H). destruct (vs_names sp !! i) as [[n p]|] eqn:En; [|done]. cbn [mbind option_bind] in H. destruct (decide (n = "_")); [done|]. destruct (vs_values sp !! i) as [v|] eqn:Ev; [|done]. cbn [mbind option_bind] in H. injection H as <-. by exists i, n, p, v.
  - intros (i & n & p & v & En & N & Ev & ->). exists i. split; [apply elem_of_seq; apply lookup_lt_Some in En; lia|]. rewrite En. cbn [mbind option_bind]. rewrite decide_False by done. rewrite Ev. done.
Qed.
Lemma inside_inv n d : inside n d ↔ n = d ∨ ∃ k, k ∈ b_kids n ∧ inside k d.
Proof. split; [intros H; inversion H; subst; [by left|right; by eexists]|intros [->|(k & Hk & H)]; [apply inside_self|by apply (inside_kid _ k)]]. Qed.
Lemma stmts_spec d : ∀ body s, s ∈ stmts d body ↔ assigned_in body s ∨ d = true ∧ declared_in body s.
Proof.
  apply (bnode_kids (λ body, ∀ s, s ∈ stmts d body ↔ assigned_in body s ∨ d = true ∧ declared_in body s)). intros k ks IH s. rewrite stmts_eq, elem_of_app, elem_of_concat. cbn [b_kind b_kids].
  assert (H1 : s ∈ stmts_here d k ↔ k = KAssign s ∨ d = true ∧ ∃ l sp i name p v, k = KVar l ∧ sp ∈ l ∧ vs_names sp !! i = Some (name, p) ∧ name ≠ "_" ∧ vs_values sp !! i = Some v ∧ s = AStmt "=" (vs_fn sp) p [LIdent name] [v]).
  { destruct k as [s'|l|l| |]; cbn [stmts_here].
    - rewrite elem_of_list_singleton. split; [intros ->; by left|]. intros [E|(_ & l & ? & ? & ? & ? & ? & ? & _)]; [congruence|done].
    - destruct d.
      + rewrite elem_of_concat. split.
        * intros (x & Hx & Hs). apply elem_of_list_fmap in Hx as (sp & -> & Hsp). apply synth_spec in Hs as (i & n & p & v & Q). right. split; [done|]. by exists l, sp, i, n, p, v.
        * intros [?|(_ & l' & sp & i & n & p & v & E & Hsp & Q)]; [done|]. assert (l' = l) as -> by congruence. exists (synths sp). split; [apply elem_of_list_fmap; by exists sp|]. apply synth_spec. by exists i, n, p, v.
      + rewrite elem_of_nil. split; [done|]. intros [?|[? _]]; done.
    - rewrite elem_of_nil. split; [done|]. intros [?|(_ & ? & ? & ? & ? & ? & ? & ? & _)]; done.
    - rewrite elem_of_nil. split; [done|]. intros [?|(_ & ? & ? & ? & ? & ? & ? & ? & _)]; done.
    - rewrite elem_of_nil. split; [done|]. intros [?|(_ & ? & ? & ? & ? & ? & ? & ? & _)]; done. }
  rewrite H1. unfold assigned_in, declared_in. split.
  - intros [[->|(Hd & l & sp & i & n & p & v & -> & Q)]|(x & Hx & Hs)].
    + left. exists (BNode (KAssign s) ks). split; [apply inside_self|done].
    + right. split; [done|]. exists (BNode (KVar l) ks), l, sp, i, n, p, v. split; [apply inside_self|done].
    + apply elem_of_list_fmap in Hx as (c & -> & Hc). apply (IH c Hc) in Hs as [(n & Hn & Hk)|(Hd & n & l & sp & i & nm & p & v & Hn & Q)].
      * left. exists n. split; [by apply (inside_kid _ c)|done].
      * right. split; [done|]. exists n, l, sp, i, nm, p, v. split; [by apply (inside_kid _ c)|done].
  - intros [(n & Hn & Hk)|(Hd & n & l & sp & i & nm & p & v & Hn & Hk & Q)]; apply inside_inv in Hn as [<-|(c & Hc & Hn)].
    + left. left. done.
    + right. exists (stmts d c). split; [apply elem_of_list_fmap; by exists c|]. apply (IH c Hc). left. by exists n.
    + left. right. split; [done|]. by exists l, sp, i, nm, p, v.
    + right. exists (stmts d c). split; [apply elem_of_list_fmap; by exists c|]. apply (IH c Hc). right. split; [done|]. by exists n, l, sp, i, nm, p, v.
Qed.
Lemma add_all (l : list rasn) : ∀ (m : amap) v, default [] (foldl add_asn m l !! v) = default [] (m !! v) ++ filter (λ a, ra_var a = v) l.
Proof.
  induction l as [|a l IH]; intros m v; [cbn; by rewrite app_nil_r|]. cbn [foldl]. rewrite IH, filter_cons. unfold add_asn. destruct (decide (ra_var a = v)) as [->|N].
  - rewrite lookup_insert. cbn [default]. unfold default at 1, from_option, id. by rewrite <- app_assoc.
  - by rewrite lookup_insert_ne.
Qed.
Lemma map_lookup d body v : default [] (foldl add_asn ∅ (concat (process_assignment <$> stmts d body)) !! v) = filter (λ a, ra_var a = v) (concat (process_assignment <$> stmts d body)).
Proof. rewrite add_all. by rewrite lookup_empty. Qed.
Lemma in_process (l : list astmt) a : a ∈ concat (process_assignment <$> l) ↔ ∃ s i, s ∈ l ∧ noted s i a.
Proof.
  rewrite elem_of_concat. split.
  - intros (x & Hx & Ha). apply elem_of_list_fmap in Hx as (s & -> & Hs). apply process_spec in Ha as [i Hi]. by exists s, i.
  - intros (s & i & Hs & Hn). exists (process_assignment s). split; [apply elem_of_list_fmap; by exists s|]. apply process_spec. by exists i.
Qed.
(** C101a: for a variable a function records exactly what its assignments, those in literals too, and its declarations with a value give it; a method what its assignments give. *)
Theorem C101_function_iff body v a : a ∈ default [] (function_map body !! v) ↔ ra_var a = v ∧ ∃ s i, (assigned_in body s ∨ declared_in body s) ∧ noted s i a.
Proof.
  unfold function_map. rewrite map_lookup, elem_of_list_filter, in_process. apply and_iff_compat_l. split.
  - intros (s & i & Hs & Hn). apply stmts_spec in Hs as [Hs|[_ Hs]]; exists s, i; (split; [|done]); [by left|by right].
  - intros (s & i & Hs & Hn). exists s, i. split; [|done]. apply stmts_spec. destruct Hs as [Hs|Hs]; [by left|by right].
Qed.
Theorem C101_method_iff body v a : a ∈ default [] (method_map body !! v) ↔ ra_var a = v ∧ ∃ s i, assigned_in body s ∧ noted s i a.
Proof.
  unfold method_map. rewrite map_lookup, elem_of_list_filter, in_process. apply and_iff_compat_l. split.
  - intros (s & i & Hs & Hn). apply stmts_spec in Hs as [Hs|[? _]]; [|done]. by exists s, i.
  - intros (s & i & Hs & Hn). exists s, i. split; [|done]. apply stmts_spec. by left.
Qed.
(** C101b: a call records what the function it calls assigns and, in main, what its result is assigned to. *)
Theorem C101_edge_iff callee in_main parent v a :
  a ∈ default [] (edge_map callee in_main parent !! v) ↔ ra_var a = v ∧ ∃ s i, noted s i a ∧ ((∃ b, callee = Some b ∧ assigned_in b s) ∨ in_main = true ∧ parent = Some s).
Proof.
  unfold edge_map. rewrite add_all, elem_of_app, elem_of_list_filter.
  assert (H1 : a ∈ default [] (match callee with Some b => method_map b | None => ∅ end !! v) ↔ ra_var a = v ∧ ∃ s i b, noted s i a ∧ callee = Some b ∧ assigned_in b s).
  { destruct callee as [b|].
    - rewrite C101_method_iff. apply and_iff_compat_l. split; [intros (s & i & ? & ?); by exists s, i, b|intros (s & i & b' & ? & E & ?); exists s, i; by assert (b' = b) as <- by congruence].
    - rewrite lookup_empty. change (default [] None) with (@nil rasn). rewrite elem_of_nil. split; [done|]. intros (_ & ? & ? & ? & _ & ? & _). done. }
  rewrite H1. split.
  - intros [(Hv & s & i & b & Hn & E & Hb)|[Hv H]].
    + split; [done|]. exists s, i. split; [done|]. left. by exists b.
    + split; [done|]. destruct in_main; [|by apply elem_of_nil in H]. destruct parent as [s|]; [|by apply elem_of_nil in H]. apply process_spec in H as [i Hi]. exists s, i. split; [done|]. by right.
  - intros (Hv & s & i & Hn & [(b & E & Hb)|[-> ->]]).
    + left. split; [done|]. by exists s, i, b.
    + right. split; [done|]. apply process_spec. by exists i.
Qed.
Lemma sorted_filter {A} (R : A → A → Prop) (P : A → Prop) `{∀ x, Decision (P x)} l : StronglySorted R l → StronglySorted R (filter P l).
Proof.
  induction 1 as [|x l Hs IH Hf]; [constructor|]. rewrite filter_cons. destruct (decide (P x)); [|done]. constructor; [done|]. apply Forall_forall. intros y Hy. apply elem_of_list_filter in Hy as [_ Hy]. rewrite Forall_forall in Hf. by apply Hf.
Qed.
(** C101c: the assignments of a variable are in the order of the source. *)
Theorem C101_order body v : StronglySorted (λ s t, st_pos s ≤ st_pos t)%Z (stmts true body) → StronglySorted (λ a b, ra_pos a ≤ ra_pos b)%Z (default [] (function_map body !! v)).
Proof.
  intros H. unfold function_map. rewrite map_lookup. apply sorted_filter.
  induction H as [|s l Hs IH Hf]; [constructor|]. change (concat (process_assignment <$> s :: l)) with (process_assignment s ++ concat (process_assignment <$> l)).
  assert (P : ∀ a, a ∈ process_assignment s → ra_pos a = st_pos s). { intros a Ha. apply process_spec in Ha as (i & ll & r & ix & _ & Hp & _). done. }
  assert (Q : ∀ b, b ∈ concat (process_assignment <$> l) → (st_pos s ≤ ra_pos b)%Z). { intros b Hb. apply in_process in Hb as (t & i & Ht & (ll & r & ix & _ & Hp & _)). rewrite Hp. rewrite Forall_forall in Hf. by apply Hf. }
  revert P. generalize (process_assignment s). intros la P. induction la as [|a la IHa]; [done|]. cbn [app]. constructor; [apply IHa; intros b Hb; apply P; by right|]. apply Forall_forall. intros b Hb. rewrite (P a) by (by left). apply elem_of_app in Hb as [Hb|Hb]; [rewrite (P b) by (by right); lia|by apply Q].
Qed.
(** C101d: Returns are exactly the non-empty returns outside of literals. *)
Theorem C101_returns_iff : ∀ body l, l ∈ returns body ↔ l ≠ [] ∧ ∃ n, outside_lits body n ∧ b_kind n = KReturn l.
Proof.
  apply (bnode_kids (λ body, ∀ l, l ∈ returns body ↔ l ≠ [] ∧ ∃ n, outside_lits body n ∧ b_kind n = KReturn l)). intros k ks IH l. rewrite returns_eq. cbn [b_kind b_kids].
  assert (K : l ∈ concat (returns <$> ks) ↔ l ≠ [] ∧ ∃ n c, c ∈ ks ∧ outside_lits c n ∧ b_kind n = KReturn l).
  { rewrite elem_of_concat. split.
    - intros (x & Hx & Hl). apply elem_of_list_fmap in Hx as (c & -> & Hc). apply (IH c Hc) in Hl as (Hne & n & Hn & Hk). split; [done|]. by exists n, c.
    - intros (Hne & n & c & Hc & Hn & Hk). exists (returns c). split; [apply elem_of_list_fmap; by exists c|]. apply (IH c Hc). split; [done|]. by exists n. }
  assert (I : ∀ n, outside_lits (BNode k ks) n ↔ k ≠ KLit ∧ (n = BNode k ks ∨ ∃ c, c ∈ ks ∧ outside_lits c n)).
  { intros n. split.
    - intros H. inversion H as [? Hk|? c ? Hk Hc Hd]; subst; (split; [exact Hk|]); [by left|right; by exists c].
    - intros [Hk [->|(c & Hc & Hd)]]; [by apply out_self|by apply (out_kid _ c)]. }
  assert (G : k ≠ KLit → (∀ l', k = KReturn l' → l' = [] ) → l ∈ concat (returns <$> ks) ↔ l ≠ [] ∧ ∃ n, outside_lits (BNode k ks) n ∧ b_kind n = KReturn l).
  { intros Nk Nr. rewrite K. split.
    - intros (Hne & n & c & Hc & Hn & Hk). split; [done|]. exists n. split; [|done]. apply I. split; [done|]. right. by exists c.
    - intros (Hne & n & Hn & Hk). apply I in Hn as [_ [->|(c & Hc & Hn)]]; [cbn in Hk; destruct Hne; by apply Nr|]. split; [done|]. by exists n, c. }
  destruct k as [s|vl|[|x xs]| |].
  - apply G; done.
  - apply G; done.
  - apply G; [done|]. intros l' E. congruence.
  - rewrite elem_of_cons, K. split.
    + intros [->|(Hne & n & c & Hc & Hn & Hk)]; [split; [discriminate|]|split; [exact Hne|]].
      * exists (BNode (KReturn (x :: xs)) ks). split; [by apply out_self|done].
      * exists n. split; [|done]. apply I. split; [done|]. right. by exists c.
    + intros (Hne & n & Hn & Hk). apply I in Hn as [_ [->|(c & Hc & Hn)]]; [left; cbn in Hk; congruence|right]. split; [done|]. by exists n, c.
  - rewrite elem_of_nil. split; [done|]. intros (_ & n & Hn & _). apply I in Hn as [? _]. done.
  - apply G; done.
Qed.
(** C101e: ReturnVars is the first of the longest. *)
Theorem C101_return_vars body : (returns body = [] ∧ return_vars body = []) ∨ ∃ l l', returns body = l ++ return_vars body :: l' ∧ (∀ x, x ∈ l → length x < length (return_vars body)) ∧ ∀ x, x ∈ l' → length x ≤ length (return_vars body).
Proof.
  assert (Hne : ∀ x, x ∈ returns body → x ≠ []) by (intros x Hx; by apply C101_returns_iff in Hx as [? _]). unfold return_vars. revert Hne. generalize (returns body). intros rs Hne.
  assert (G : ∀ rs best, (foldl (λ best l, if decide (length best < length l) then l else best) best rs = best ∧ ∀ x, x ∈ rs → length x ≤ length best) ∨
    ∃ l l' r, foldl (λ best l, if decide (length best < length l) then l else best) best rs = r ∧ rs = l ++ r :: l' ∧ length best < length r ∧ (∀ x : list string, x ∈ l → length x < length r) ∧ ∀ x, x ∈ l' → length x ≤ length r).
  { clear. induction rs as [|x rs IH]; intros best; [left; split; [done|]; intros x Hx; by apply elem_of_nil in Hx|]. cbn [foldl]. destruct (decide (length best < length x)) as [H|H].
    - right. destruct (IH x) as [[E1 E2]|(l & l' & r & E & Hrs & Hlt & H1 & H2)].
      + exists [], rs, x. split; [done|]. split; [done|]. split; [done|]. split; [|done]. intros y Hy. by apply elem_of_nil in Hy.
      + exists (x :: l), l', r. split; [done|]. split; [by rewrite Hrs|]. split; [lia|]. split; [|done]. intros y Hy. apply elem_of_cons in Hy as [->|Hy]; [done|by apply H1].
    - destruct (IH best) as [[E1 E2]|(l & l' & r & E & Hrs & Hlt & H1 & H2)].
      + left. split; [done|]. intros y Hy. apply elem_of_cons in Hy as [->|Hy]; [lia|by apply E2].
      + right. exists (x :: l), l', r. split; [done|]. split; [by rewrite Hrs|]. split; [done|]. split; [|done]. intros y Hy. apply elem_of_cons in Hy as [->|Hy]; [lia|by apply H1]. }
  destruct (G rs []) as [[E1 E2]|(l & l' & r & E & Hrs & Hlt & H1 & H2)].
  - left. rewrite E1. split; [|done]. destruct rs as [|x rs]; [done|]. exfalso. assert (Hx : x ∈ x :: rs) by (by left). specialize (E2 x Hx). specialize (Hne x Hx). destruct x; [done|cbn in E2; lia].
  - right. exists l, l'. rewrite E. done.
Qed.

(** ** Visible at a call *)
(** Where the assignments of a variable are looked for, in this order: the call's own, the caller's if it is a function, the parent's if it is one, the parent's as a method. *)
Section visible.
  Context (fns : list rfunc) (ms : list rmeth).
  (** The function a name and a package lead to: the first of that package, else of any. *)
  Definition leads (pkg name : string) (f : rfunc) : Prop :=
    name ≠ "" ∧ ∃ l l', fns = l ++ f :: l' ∧ rf_name f = name ∧
      ((rf_pkg f = pkg ∧ ∀ g, g ∈ l → ¬ (rf_pkg g = pkg ∧ rf_name g = name)) ∨
       ((∀ g, g ∈ fns → ¬ (rf_pkg g = pkg ∧ rf_name g = name)) ∧ ∀ g, g ∈ l → rf_name g ≠ name)).
  Definition fn_asns (pkg name var : string) (l : list rasn) : Prop := l ≠ [] ∧ ∃ f, leads pkg name f ∧ rf_map f !! var = Some l.
  Definition meth_asns (pkg recv name var : string) (l : list rasn) : Prop :=
    l ≠ [] ∧ name ≠ "" ∧ ∃ m a b, ms = a ++ m :: b ∧ rm_pkg m = pkg ∧ rm_name m = name ∧ (recv = "" ∨ rm_recv m = recv) ∧ rm_map m !! var = Some l ∧
      ∀ m', m' ∈ a → rm_pkg m' = pkg → rm_name m' = name → (recv = "" ∨ rm_recv m' = recv) → default [] (rm_map m' !! var) = [].
  Definition seen (e : redge) (var : string) (l : list rasn) : Prop :=
    var ≠ "" ∧
    ((l ≠ [] ∧ re_map e !! var = Some l) ∨
     default [] (re_map e !! var) = [] ∧
     (fn_asns (re_pkg e) (re_name e) var l ∨
      (¬ ∃ l', fn_asns (re_pkg e) (re_name e) var l') ∧
      ∃ pkg recv name, re_parent e = Some (pkg, recv, name) ∧
        (fn_asns pkg name var l ∨ (¬ ∃ l', fn_asns pkg name var l') ∧ meth_asns pkg recv name var l))).
  Lemma head_filter {A} (P : A → Prop) `{∀ x, Decision (P x)} l x : head (filter P l) = Some x ↔ ∃ a b, l = a ++ x :: b ∧ P x ∧ ∀ y, y ∈ a → ¬ P y.
  Proof.
    induction l as [|y l IH].
    - cbn. split; [done|]. intros (a & b & E & _). by destruct a.
    - rewrite filter_cons. destruct (decide (P y)) as [Hy|Hy].
      + cbn [head]. split.
        * intros [= <-]. exists [], l. split; [done|]. split; [done|]. intros z Hz. by apply elem_of_nil in Hz.
        * intros ([|z a] & b & E & Hx & Hn); cbn in E; injection E as -> ->; [done|]. destruct (Hn z); [by left|done].
      + rewrite IH. split.
        * intros (a & b & -> & Hx & Hn). exists (y :: a), b. split; [done|]. split; [done|]. intros z Hz. apply elem_of_cons in Hz as [->|Hz]; [done|by apply Hn].
        * intros ([|z a] & b & E & Hx & Hn); cbn in E; injection E as -> ->; [done|]. exists a, b. split; [done|]. split; [done|]. intros w Hw. apply Hn. by right.
  Qed.
  Lemma head_filter_none {A} (P : A → Prop) `{∀ x, Decision (P x)} l : head (filter P l) = None ↔ ∀ x, x ∈ l → ¬ P x.
  Proof.
    destruct (filter P l) as [|y ys] eqn:E; cbn [head].
    - split; [|done]. intros _ x Hx Hp. assert (X : x ∈ filter P l) by (by apply elem_of_list_filter). rewrite E in X. by apply elem_of_nil in X.
    - split; [done|]. intros H'. exfalso. assert (X : y ∈ filter P l) by (rewrite E; by left). apply elem_of_list_filter in X as [Hp Hy]. by destruct (H' y Hy).
  Qed.
  Lemma find_function_spec pkg name f : find_function fns pkg name = Some f ↔ leads pkg name f.
  Proof.
    unfold find_function, leads. destruct (decide (name = "")) as [->|N]; [split; [done|intros [? _]; done]|].
    destruct (head (filter (λ f, rf_pkg f = pkg ∧ rf_name f = name) fns)) as [g|] eqn:E.
    - pose proof E as E'. apply head_filter in E as (a & b & Ef & [Hp Hn] & Ha). split.
      + intros [= <-]. split; [done|]. exists a, b. split; [done|]. split; [done|]. by left.
      + intros (_ & l & l' & El & Hf & [[Hp' Hl]|[Hno _]]).
        * rewrite <- E'. apply head_filter. by exists l, l'.
        * exfalso. apply (Hno g); [rewrite Ef; apply elem_of_app; right; by left|done].
    - rewrite head_filter_none in E. rewrite head_filter. split.
      + intros (a & b & Ef & Hf & Ha). split; [done|]. exists a, b. split; [done|]. split; [done|]. by right.
      + intros (_ & l & l' & El & Hf & [[Hp' Hl]|[Hno Hl]]); [|by exists l, l']. exfalso. apply (E f); [rewrite El; apply elem_of_app; right; by left|done].
  Qed.
  Lemma holding_spec var pkg name l : l ≠ [] → (∃ m, holding var (find_function fns pkg name) = Some m ∧ m !! var = Some l) ↔ fn_asns pkg name var l.
  Proof.
    intros Hne. unfold holding, fn_asns. split.
    - intros (m & H & Hm). destruct (find_function fns pkg name) as [f|] eqn:E; [|done]. destruct (decide (default [] (rf_map f !! var) = [])); [done|]. injection H as <-. split; [done|]. exists f. split; [by apply find_function_spec|done].
    - intros (_ & f & Hf & Hm). apply find_function_spec in Hf. rewrite Hf. rewrite Hm. change (default [] (Some l)) with l. rewrite decide_False by done. by exists (rf_map f).
  Qed.
  Lemma holding_none var pkg name : holding var (find_function fns pkg name) = None ↔ ¬ ∃ l, fn_asns pkg name var l.
  Proof.
    split.
    - intros H (l & Hl). pose proof Hl as [Hne _]. apply holding_spec in Hl as (m & E & _); [congruence|done].
    - intros H. destruct (holding var (find_function fns pkg name)) as [m|] eqn:E; [|done]. exfalso. apply H. pose proof E as E'. unfold holding in E. destruct (find_function fns pkg name) as [f|] eqn:F; [|done]. destruct (decide (default [] (rf_map f !! var) = [])) as [|N]; [done|]. injection E as <-.
      destruct (rf_map f !! var) as [l|] eqn:L; [|done]. change (default [] (Some l)) with l in N. exists l. apply holding_spec; [done|]. exists (rf_map f). rewrite F. by split.
  Qed.
  Lemma method_spec pkg recv name var l : l ≠ [] → (∃ m, method_assignments ms pkg recv name var = Some m ∧ m !! var = Some l) ↔ meth_asns pkg recv name var l.
  Proof.
    intros Hne. unfold method_assignments, meth_asns. destruct (decide (name = "")) as [->|N]; [split; [intros (? & ? & _); done|intros (_ & ? & _); done]|]. split.
    - intros (m & H & Hm). apply fmap_Some in H as (rm & H & ->). apply head_filter in H as (a & b & E & (H1 & H2 & H3 & H4) & Ha). split; [done|]. split; [done|]. exists rm, a, b. split; [done|]. split; [done|]. split; [done|]. split; [done|]. split; [done|]. intros m' Hm' G1 G2 G3. destruct (decide (default [] (rm_map m' !! var) = [])) as [|X]; [done|]. by destruct (Ha m' Hm').
    - intros (_ & _ & rm & a & b & E & H1 & H2 & H3 & H4 & Ha). exists (rm_map rm). split; [|done]. apply fmap_Some. exists rm. split; [|done]. apply head_filter. exists a, b. split; [done|]. split; [split; [done|]; split; [done|]; split; [done|]; by rewrite H4|]. intros m' Hm' (G1 & G2 & G3 & G4). by apply G4, Ha.
  Qed.
  (** C102a: what is visible at a call is exactly what the first of these places records. *)
  Theorem C102_visible_iff e var l : l ≠ [] → assignments_at fns ms e var = l ↔ seen e var l.
  Proof.
    intros Hne. unfold assignments_at, seen. destruct (decide (var = "")) as [->|N]; [split; [intros H; by symmetry in H|intros [? _]; done]|].
    destruct (re_map e !! var) as [[|a l0]|] eqn:E.
    1,3: (change (default [] (Some [])) with (@nil rasn); change (default [] None) with (@nil rasn); cbn beta iota).
    3:{ change (default [] (Some (a :: l0))) with (a :: l0). cbn beta iota. split.
        - intros <-. split; [done|]. by left.
        - intros [_ [[_ H]|[H _]]]; congruence. }
    all: unfold caller_map; split.
    1,3: (intros H; split; [done|]; right; split; [done|]; destruct (holding var (find_function fns (re_pkg e) (re_name e))) as [m|] eqn:Hh;
      [left; apply holding_spec; [done|]; exists m; split; [done|]; destruct (m !! var) as [x|]; [by subst|exfalso; by apply Hne]
      |right; split; [by apply holding_none|]; destruct (re_parent e) as [[[pkg recv] name]|]; [|exfalso; by apply Hne]; exists pkg, recv, name; split; [done|];
       destruct (holding var (find_function fns pkg name)) as [m|] eqn:Hh';
       [left; apply holding_spec; [done|]; exists m; split; [done|]; destruct (m !! var) as [x|]; [by subst|exfalso; by apply Hne]
       |right; split; [by apply holding_none|]; destruct (method_assignments ms pkg recv name var) as [m|] eqn:Hm; [|exfalso; by apply Hne]; apply method_spec; [done|]; exists m; split; [done|]; destruct (m !! var) as [x|]; [by subst|exfalso; by apply Hne]]]).
    all: (intros [_ [[_ H]|[_ [H|(H & pkg & recv & name & Ep & [G|[G M]])]]]]; [congruence|..];
      [apply holding_spec in H as (m & -> & Hm); [|done]; by rewrite Hm
      |apply holding_none in H; rewrite H, Ep; apply holding_spec in G as (m & -> & Hm); [|done]; by rewrite Hm
      |apply holding_none in H; apply holding_none in G; rewrite H, Ep, G; apply method_spec in M as (m & -> & Hm); [|done]; by rewrite Hm]).
  Qed.
  (** A receiver with and without its star. *)
  Definition same_recv (a b : string) : Prop := ∃ t, (a = t ∨ a = String "*"%char t) ∧ (b = t ∨ b = String "*"%char t).
  Lemma trim_star_cases s : s = trim_star s ∨ s = String "*"%char (trim_star s).
  Proof. destruct s as [|c t]; [by left|]. cbn. destruct (decide (c = "*"%char)) as [->|]; [by right|by left]. Qed.
  Lemma trim_star_same a b : (∀ t, a ≠ String "*"%char (String "*"%char t)) → (∀ t, b ≠ String "*"%char (String "*"%char t)) → trim_star a = trim_star b ↔ same_recv a b.
  Proof.
    intros Ha Hb. split.
    - intros E. exists (trim_star a). split; [apply trim_star_cases|]. rewrite E. apply trim_star_cases.
    - assert (G : ∀ c t, (∀ t, c ≠ String "*"%char (String "*"%char t)) → c = t ∨ c = String "*"%char t → trim_star c = trim_star t).
      { intros c t Hc [->| ->]; [done|]. cbn. destruct t as [|d u]; [done|]. cbn. destruct (decide (d = "*"%char)) as [->|]; [by destruct (Hc u)|done]. }
      intros (t & H1 & H2). rewrite (G a t Ha H1), (G b t Hb H2). done.
  Qed.
  (** C102b: the method found is exactly the first of the package with the name, whose receiver is the same up to a star; any, if none is asked for. *)
  Theorem C102_method_iff pkg recv name m : (∀ m' t, m' ∈ ms → rm_recv m' ≠ String "*"%char (String "*"%char t)) → (∀ t, recv ≠ String "*"%char (String "*"%char t)) →
    find_method ms pkg recv name = Some m ↔ name ≠ "" ∧ ∃ a b, ms = a ++ m :: b ∧ rm_pkg m = pkg ∧ rm_name m = name ∧ (recv = "" ∨ same_recv (rm_recv m) recv) ∧
      ∀ m', m' ∈ a → ¬ (rm_pkg m' = pkg ∧ rm_name m' = name ∧ (recv = "" ∨ same_recv (rm_recv m') recv)).
  Proof.
    intros Hm Hr. unfold find_method. destruct (decide (name = "")) as [->|N]; [split; [done|intros [? _]; done]|]. rewrite head_filter. split.
    - intros (a & b & E & (H1 & H2 & H3) & Ha). split; [done|]. exists a, b. split; [done|]. split; [done|]. split; [done|]. split.
      + destruct H3 as [?|H3]; [by left|right]. apply trim_star_same in H3; [done| |done]. intros t. apply Hm. rewrite E. apply elem_of_app. right. by left.
      + intros m' Hm' (G1 & G2 & G3). apply (Ha m' Hm'). split; [done|]. split; [done|]. destruct G3 as [?|G3]; [by left|right]. apply trim_star_same; [|done|done]. intros t. apply Hm. rewrite E. apply elem_of_app. by left.
    - intros (_ & a & b & E & H1 & H2 & H3 & Ha). exists a, b. split; [done|]. split.
      + split; [done|]. split; [done|]. destruct H3 as [?|H3]; [by left|right]. apply trim_star_same; [|done|done]. intros t. apply Hm. rewrite E. apply elem_of_app. right. by left.
      + intros m' Hm' (G1 & G2 & G3). apply (Ha m' Hm'). split; [done|]. split; [done|]. destruct G3 as [?|G3]; [by left|right]. apply trim_star_same in G3; [done| |done]. intros t. apply Hm. rewrite E. apply elem_of_app. by left.
  Qed.
End visible.

(** ** Examples *)
Definition r_val (v : string) : rside := RSide v None "T".
Definition r_call (v f : string) : rside := RSide v (Some (f, "app")) "T".
Definition r_asn (tok fn : string) (p : Z) (n : string) (r : rside) : bnode := BNode (KAssign (AStmt tok fn p [LIdent n] [r])) [].
(** [x := a; y, err := f(); x = b] with a literal that assigns x. *)
Definition r_body : bnode := BNode KPlain [r_asn ":=" "H" 1 "x" (r_val "a"); BNode (KAssign (AStmt ":=" "H" 2 [LIdent "y"; LIdent "err"] [r_call "f()" "f"])) [];
  BNode KLit [r_asn "=" "FuncLit:h.go:3:1" 3 "x" (r_val "c"); BNode (KReturn ["x"]) []]; r_asn "=" "H" 4 "x" (r_val "b"); BNode (KReturn ["x"; "nil"]) []].
Example C101_body : (ra_value <$> default [] (function_map r_body !! "x")) = ["a"; "c"; "b"] ∧ (ra_index <$> default [] (function_map r_body !! "err")) = [1] ∧ return_vars r_body = ["x"; "nil"] ∧ returns r_body = [["x"; "nil"]].
Proof. by vm_compute. Qed.
Example C101_ordered : StronglySorted (λ s t, st_pos s ≤ st_pos t)%Z (stmts true r_body).
Proof. cbn. repeat constructor; cbn; lia. Qed.
(** C101f: a method does not record a variable declared with its value: [var body Shape = Circle{}]. *)
Theorem C101_var_refuted : ∃ body s i a, declared_in body s ∧ noted s i a ∧ default [] (function_map body !! ra_var a) = [a] ∧ default [] (method_map body !! ra_var a) = [].
Proof.
  exists (BNode (KVar [VSpec "H" [("body", 5%Z)] [r_val "Circle{}"]]) []), (AStmt "=" "H" 5 [LIdent "body"] [r_val "Circle{}"]), 0, (RAsn "body" "H" "T" 5 "Circle{}" ("", "") 0).
  split; [|split; [by apply record_at_spec|split; by vm_compute]]. exists (BNode (KVar [VSpec "H" [("body", 5%Z)] [r_val "Circle{}"]]) []), [VSpec "H" [("body", 5%Z)] [r_val "Circle{}"]], (VSpec "H" [("body", 5%Z)] [r_val "Circle{}"]), 0, "body", 5%Z, (r_val "Circle{}"). split; [apply inside_self|]. split; [done|]. split; [by left|]. done.
Qed.
(** C101g: the second variable of [var a, err = f()] is recorded nowhere, though [a, err := f()] records it. *)
Theorem C101_tuple_var_refuted : ∃ names r, default [] (function_map (BNode (KVar [VSpec "H" names [r]]) []) !! "err") = [] ∧ ∃ s, st_lhs s = (λ x, LIdent x.1) <$> names ∧ st_rhs s = [r] ∧ length (default [] (function_map (BNode (KAssign s) []) !! "err")) = 1.
Proof. exists [("a", 1%Z); ("err", 2%Z)], (r_call "f()" "f"). split; [by vm_compute|]. exists (AStmt ":=" "H" 1 [LIdent "a"; LIdent "err"] [r_call "f()" "f"]). split; [done|]. split; [done|]. by vm_compute. Qed.
(** C101h: [code += 1] is recorded as if it were [code = 1]. *)
Theorem C101_compound_refuted : ∃ s s', st_tok s = "+=" ∧ st_tok s' = "=" ∧ process_assignment s = process_assignment s' ∧ process_assignment s ≠ [].
Proof. exists (AStmt "+=" "H" 1 [LIdent "code"] [r_val "1"]), (AStmt "=" "H" 1 [LIdent "code"] [r_val "1"]). split; [done|]. split; [done|]. split; [done|]. by vm_compute. Qed.

Definition r_caller : bnode := BNode KPlain [r_asn ":=" "H" 1 "err" (r_val "errNotFound"); r_asn "=" "H" 9 "err" (r_val "errGone")].
Definition r_callee : bnode := BNode KPlain [r_asn ":=" "write" 20 "err" (r_val "encode()")].
Definition r_fns (caller : string) : list rfunc := [RFunc "app" caller (function_map r_caller)].
Example C102_found : ra_value <$> assignments_at (r_fns "H") [] (REdge ∅ "app" "H" None) "err" = ["errNotFound"; "errGone"].
Proof. by vm_compute. Qed.
(** C102c: a variable of the function called hides the caller's own of the same name. *)
Theorem C102_same_refuted : ∃ fns e l l', re_map e = edge_map (Some r_callee) false None ∧ seen fns [] (REdge ∅ (re_pkg e) (re_name e) (re_parent e)) "err" l ∧ l' ≠ l ∧ assignments_at fns [] e "err" = l'.
Proof.
  exists (r_fns "H"), (REdge (edge_map (Some r_callee) false None) "app" "H" None), [RAsn "err" "H" "T" 1 "errNotFound" ("", "") 0; RAsn "err" "H" "T" 9 "errGone" ("", "") 0], [RAsn "err" "write" "T" 20 "encode()" ("", "") 0].
  split; [done|]. split; [apply C102_visible_iff; [done|]; by vm_compute|]. split; [done|]. by vm_compute.
Qed.
(** C102d: the most recent assignment of a variable is the last of the function, even behind the call. *)
Theorem C102_latest_refuted : ∃ fns e call_pos a b, assignments_at fns [] e "err" = [a; b] ∧ (ra_pos a < call_pos < ra_pos b)%Z ∧ latest_assignment fns [] e "err" = Some (ra_value b) ∧ ra_value b ≠ ra_value a.
Proof. exists (r_fns "H"), (REdge ∅ "app" "H" None), 5%Z, (RAsn "err" "H" "T" 1 "errNotFound" ("", "") 0), (RAsn "err" "H" "T" 9 "errGone" ("", "") 0). split; [by vm_compute|]. split; [cbn; lia|]. split; [by vm_compute|done]. Qed.
(** C102e: at a call directly in a method, the method's own assignments are not visible, but those of any function of its name are. *)
Theorem C102_method_refuted : ∃ ms e m, m ∈ ms ∧ rm_pkg m = re_pkg e ∧ rm_name m = re_name e ∧ length (default [] (rm_map m !! "err")) = 2 ∧ assignments_at [] ms e "err" = [] ∧
  ∃ f, rf_pkg f ≠ re_pkg e ∧ assignments_at [f] ms e "err" = default [] (rf_map f !! "err") ∧ default [] (rf_map f !! "err") ≠ [].
Proof.
  exists [RMeth "app" "*Server" "H" (method_map r_caller)], (REdge ∅ "app" "H" None), (RMeth "app" "*Server" "H" (method_map r_caller)). split; [by left|]. split; [done|]. split; [done|]. split; [by vm_compute|]. split; [by vm_compute|].
  exists (RFunc "other" "H" (function_map r_callee)). split; [done|]. split; by vm_compute.
Qed.
Example C102_closure : ra_value <$> assignments_at [] [RMeth "app" "*Server" "H" (method_map r_caller)] (REdge ∅ "app" "FuncLit:h.go:3:1" (Some ("app", "*Server", "H"))) "err" = ["errNotFound"; "errGone"].
Proof. by vm_compute. Qed.
Example C102_star : rm_recv <$> find_method [RMeth "app" "Server" "H" ∅; RMeth "app" "*Client" "H" ∅] "app" "Client" "H" = Some "*Client".
Proof. by vm_compute. Qed.
Print Assumptions C101_function_iff. Print Assumptions C101_method_iff. Print Assumptions C101_edge_iff. Print Assumptions C101_order. Print Assumptions C101_returns_iff. Print Assumptions C101_return_vars. Print Assumptions C101_var_refuted. Print Assumptions C101_tuple_var_refuted. Print Assumptions C101_compound_refuted.
Print Assumptions C102_visible_iff. Print Assumptions C102_method_iff. Print Assumptions C102_same_refuted. Print Assumptions C102_latest_refuted. Print Assumptions C102_method_refuted.
