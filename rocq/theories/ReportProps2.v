(** * C105: the overview report: tallies and refutations. *)
From Coq Require Import Ascii ZArith Lia.
From stdpp Require Import sorting.
From stdpp Require Import base numbers list strings gmap.
From Verif Require Import StrLib StrSub StrOrder DecLib ReportModel ReportProps.

(** ** Bodies by status *)
Definition no_nil (comps : gmap string osch) : Prop := ∀ n, comps !! n ≠ Some ONil.
Lemma body_total comps s : no_nil comps → ∃ b, body_resolution comps s = Some b.
Proof.
  intros H. induction s as [|r ty de en it ad ne pr al on an I1 _ _ _ _ _ _] using osch_ind'; cbn [body_resolution]; [by eexists|]. destruct (bool_decide _ && bool_decide _).
  - destruct (comps !! _) as [[|]|] eqn:E; [by apply H in E|by eexists..].
  - destruct (decide (ty = "array")); [by rewrite items_same|]. destruct (_ || en); [by eexists|]. destruct (decide _); by eexists.
Qed.
Lemma best_spec l : ∀ b0, body_rank b0 ≤ body_rank (best_of b0 l) ∧ (∀ b, b ∈ l → body_rank b ≤ body_rank (best_of b0 l)) ∧ (best_of b0 l = b0 ∨ best_of b0 l ∈ l).
Proof.
  induction l as [|b l IH]; intros b0; cbn [best_of]; [split; [done|]; split; [intros b Hb; by apply not_elem_of_nil in Hb|by left]|].
  destruct (decide (body_rank b0 < body_rank b)) as [L|L].
  - destruct (IH b) as (H1 & H2 & H3). split; [lia|]. split; [intros b' Hb; apply elem_of_cons in Hb as [->|Hb]; [lia|by apply H2]|]. right. destruct H3 as [->|H3]; [by left|by right].
  - destruct (IH b0) as (H1 & H2 & H3). split; [lia|]. split; [intros b' Hb; apply elem_of_cons in Hb as [->|Hb]; [lia|by apply H2]|]. destruct H3 as [?|?]; [by left|right; by right].
Qed.
(** C105h: a response is counted once: empty without contents, else by the best any of them says. *)
Theorem C105_bucket comps content : no_nil comps → ∃ b, response_bucket comps content = Some b ∧ (b = None ↔ content = []) ∧
  (b = Some BSchema ↔ ∃ ct s, (ct, s) ∈ content ∧ says comps s BSchema) ∧
  (b = Some BFree ↔ (∃ ct s, (ct, s) ∈ content ∧ says comps s BFree) ∧ ¬ ∃ ct s, (ct, s) ∈ content ∧ says comps s BSchema) ∧
  (b = Some BUnresolved ↔ content ≠ [] ∧ ∀ ct s, (ct, s) ∈ content → says comps s BUnresolved).
Proof.
  intros H. destruct content as [|c0 cs].
  { exists None. split; [done|]. split; [done|]. split; [|split]; (split; [done|]). - intros (? & ? & X & _). by apply not_elem_of_nil in X. - intros [(? & ? & X & _) _]. by apply not_elem_of_nil in X. - by intros [? _]. }
  remember (c0 :: cs) as content eqn:Ec. assert (Hne : content ≠ []) by (by subst). assert (∃ bs, mapM (body_resolution comps) content.*2 = Some bs) as [bs E].
  { clear - H. induction content as [|[ct s] l [bs IH]]; [by exists []|]. destruct (body_total comps s H) as [b Hb]. exists (b :: bs). cbn. by rewrite Hb, IH. }
  assert (M : ∀ b, b ∈ bs ↔ ∃ ct s, (ct, s) ∈ content ∧ says comps s b).
  { intros b. apply mapM_Some_1 in E. split.
    - intros Hb. apply elem_of_list_lookup in Hb as [k Hk]. destruct (Forall2_lookup_r _ _ _ _ _ E Hk) as (s & Hs & Hb). rewrite list_lookup_fmap in Hs. destruct (content !! k) as [[ct s']|] eqn:K; [|done]. cbn in Hs. injection Hs as ->. exists ct, s. split; [by eapply elem_of_list_lookup_2|]. by apply C105_body_iff.
    - intros (ct & s & Hin & Hs). apply elem_of_list_lookup in Hin as [k Hk]. apply C105_body_iff in Hs; [|done]. destruct (Forall2_lookup_l _ _ _ k s E) as (b' & Hb & Hr); [by rewrite list_lookup_fmap, Hk|]. assert (b' = b) as -> by congruence. by eapply elem_of_list_lookup_2. }
  exists (Some (best_of BUnresolved bs)). split; [subst content; unfold response_bucket; by rewrite E|]. split; [split; done|]. destruct (best_spec bs BUnresolved) as (_ & B2 & B3). rewrite <- !M.
  assert (L : ∀ b, b ∈ bs → body_rank b ≤ body_rank (best_of BUnresolved bs)) by done. split; [|split].
  - split; [intros [= X]; rewrite X in B3; by destruct B3|]. intros X. apply B2 in X. by destruct (best_of BUnresolved bs); cbn in X; try lia.
  - split.
    + intros [= X]. rewrite X in B3. split; [by destruct B3|]. intros Y. apply B2 in Y. rewrite X in Y. cbn in Y. lia.
    + intros [X Y]. apply B2 in X. destruct (best_of BUnresolved bs); cbn in X; [|done|lia]. destruct B3 as [?|?]; done.
  - split.
    + intros [= X]. split; [done|]. intros ct s Hin. destruct (body_total comps s H) as [b Hb]. apply C105_body_iff in Hb; [|done]. assert (In : b ∈ bs) by (apply M; by exists ct, s). apply B2 in In. rewrite X in In. destruct b; cbn in In; [lia|lia|done].
    + intros [_ X]. f_equal. destruct B3 as [->|Y]; [done|]. apply M in Y as (ct & s & Hin & Hs). pose proof (X ct s Hin) as Hu. apply says_body in Hs, Hu. congruence.
Qed.
(** How many of the responses of a status have a bucket. *)
Definition bucket_count (comps : gmap string osch) (st : string) (b : option bstate) (rs : list (string * list (string * osch))) : nat := length (filter (λ r : string * list (string * osch), r.1 = st ∧ response_bucket comps r.2 = Some b) rs).
Definition status_count (st : string) (rs : list (string * list (string * osch))) : nat := length (filter (λ r : string * list (string * osch), r.1 = st) rs).
(** C105i: the bodies of a status: as many as it has responses, each in one of the four. *)
Theorem C105_bodies d : no_nil (od_comps d) → ∃ m, report_bodies_of d = Some m ∧ ∀ st,
  (m !! st = None ↔ status_count st (all_responses d) = 0) ∧
  ∀ sb, m !! st = Some sb → sb_total sb = status_count st (all_responses d) ∧ sb_total sb = sb_schema sb + sb_free sb + sb_empty sb + sb_unresolved sb ∧
    sb_schema sb = bucket_count (od_comps d) st (Some BSchema) (all_responses d) ∧ sb_free sb = bucket_count (od_comps d) st (Some BFree) (all_responses d) ∧
    sb_unresolved sb = bucket_count (od_comps d) st (Some BUnresolved) (all_responses d) ∧ sb_empty sb = bucket_count (od_comps d) st None (all_responses d).
Proof.
  intros H. unfold report_bodies_of. set (comps := od_comps d) in *.
  set (count := λ st rs, SBody (status_count st rs) (bucket_count comps st (Some BSchema) rs) (bucket_count comps st (Some BFree) rs) (bucket_count comps st None rs) (bucket_count comps st (Some BUnresolved) rs)).
  assert (K : ∀ rs, ∃ m : gmap string sbody, foldl (λ (acc : option (gmap string sbody)) (r : string * list (string * osch)), m ← acc; b ← response_bucket comps r.2; Some (<[r.1 := add_bucket b (default (SBody 0 0 0 0 0) (m !! r.1))]> m)) (Some ∅) rs = Some m ∧ ∀ st, (m !! st = None ↔ status_count st rs = 0) ∧ default (SBody 0 0 0 0 0) (m !! st) = count st rs ∧ (let c := count st rs in sb_total c = sb_schema c + sb_free c + sb_empty c + sb_unresolved c)).
  { induction rs as [|[st0 content] rs (m & E & IH)] using rev_ind; [exists ∅; split; [done|]; intros st; rewrite lookup_empty; done|]. rewrite foldl_app, E. cbn [foldl mbind option_bind fst snd]. destruct (C105_bucket comps content H) as (b & Hb & _). rewrite Hb. cbn [mbind option_bind]. eexists. split; [done|]. intros st.
    assert (C1 : status_count st (rs ++ [(st0, content)]) = status_count st rs + if decide (st0 = st) then 1 else 0). { unfold status_count. rewrite filter_app, app_length, filter_cons, filter_nil. cbn [fst]. by destruct (decide (st0 = st)). }
    assert (C2 : ∀ b', bucket_count comps st b' (rs ++ [(st0, content)]) = bucket_count comps st b' rs + if decide (st0 = st) then if decide (b = b') then 1 else 0 else 0).
    { intros b'. unfold bucket_count. rewrite filter_app, app_length, filter_cons, filter_nil. cbn [fst snd]. rewrite Hb. destruct (decide (st0 = st)) as [->|N]; [destruct (decide (b = b')) as [->|N]|]; (destruct (decide _) as [D|D]; [|]; cbn; try done); exfalso; [by apply D|destruct D; congruence|by destruct D]. }
    destruct (IH st) as (I1 & I2 & I3). unfold count in *. rewrite C1, !C2. destruct (decide (st0 = st)) as [->|N].
    - rewrite lookup_insert. split; [split; [done|lia]|]. rewrite I2. cbn [default id]. cbn in I3. destruct b as [[| |]|]; repeat (destruct (decide _); try congruence); cbn; (split; [f_equal; lia|lia]).
    - rewrite lookup_insert_ne by done. rewrite !Nat.add_0_r. done. }
  destruct (K (all_responses d)) as (m & E & Hm). exists m. split; [done|]. intros st. destruct (Hm st) as (H1 & H2 & H3). split; [done|]. intros sb Hsb. rewrite Hsb in H2. cbn in H2. subst sb. cbn in *. done.
Qed.

(** ** Tallies *)
Lemma tally_spec l x : tally l !! x = if decide (0 < length (filter (λ y, y = x) l)) then Some (length (filter (λ y, y = x) l)) else None.
Proof.
  unfold tally. induction l as [|y l IH] using rev_ind; [done|]. rewrite foldl_app. cbn [foldl]. rewrite filter_app, app_length, filter_cons, filter_nil. destruct (decide (y = x)) as [->|N].
  - rewrite lookup_insert, IH. cbn. destruct (decide (0 < length (filter (λ y, y = x) l))); rewrite decide_True by lia; cbn; f_equal; lia.
  - rewrite lookup_insert_ne, IH by done. cbn. by rewrite Nat.add_0_r.
Qed.
#[global] Instance count_le_total b : Total (count_le b).
Proof.
  intros x y. unfold count_le. destruct b; cbn; [|apply string_le_total']. destruct (bool_decide (x.2 = y.2)) eqn:E.
  - apply bool_decide_eq_true in E. rewrite bool_decide_eq_true_2 by done. apply string_le_total'.
  - apply bool_decide_eq_false in E. rewrite bool_decide_eq_false_2 by done. cbn. lia.
Qed.
#[global] Instance count_le_trans b : Transitive (count_le b).
Proof.
  intros x y z. unfold count_le. destruct b; cbn; [|apply string_le_tr]. repeat case_bool_decide; cbn; try lia. apply string_le_tr.
Qed.
(** C105j: the counts are those of the names that occur, the most frequent first and by name among equals, or by name. *)
Theorem C105_counts b l : (∀ x n, (x, n) ∈ sorted_counts b (tally l) ↔ 0 < n ∧ n = length (filter (λ y, y = x) l)) ∧ NoDup (sorted_counts b (tally l)).*1 ∧ StronglySorted (count_le b) (sorted_counts b (tally l)).
Proof.
  unfold sorted_counts. split; [|split].
  - intros x n. rewrite merge_sort_Permutation, elem_of_map_to_list, tally_spec. destruct (decide _) as [D|D]; [split; [intros [= <-]; done|intros [_ ->]; done]|]. split; [done|]. intros [? ->]. done.
  - rewrite merge_sort_Permutation. apply NoDup_fst_map_to_list.
  - apply StronglySorted_merge_sort; apply _.
Qed.
(** C105k: by methods they add up to the operations, and a method is counted once for each path that has it. *)
Theorem C105_methods d m n : (m, n) ∈ report_methods d ↔ 0 < n ∧ n = length (filter (λ x : string * string * oop, x.1.2 = m) (all_operations d)).
Proof.
  unfold report_methods. rewrite (proj1 (C105_counts _ _)). assert (E : ∀ l : list (string * string * oop), length (filter (λ y, y = m) ((λ x : string * string * oop, x.1.2) <$> l)) = length (filter (λ x : string * string * oop, x.1.2 = m) l)).
  { induction l as [|x l IH]; [done|]. rewrite fmap_cons, !filter_cons. destruct (decide (x.1.2 = m)); cbn; by rewrite IH. } by rewrite E.
Qed.

#[global] Instance osch_nil_dec (s : osch) : Decision (s = ONil).
Proof. destruct s; [by left|by right]. Defined.
(** C105k2: coverage counts the operations of POST, PUT and PATCH, those of them that have a schema for some content of the request body, and the
    operations with a response whose status begins with 4 or 5. *)
Theorem C105_coverage d :
  report_write d = length (filter (λ x : string * string * oop, x.1.2 = "POST" ∨ x.1.2 = "PUT" ∨ x.1.2 = "PATCH") (all_operations d)) ∧
  report_bodies d = length (filter (λ x : string * string * oop, (x.1.2 = "POST" ∨ x.1.2 = "PUT" ∨ x.1.2 = "PATCH") ∧ Exists (λ c : string * osch, c.2 ≠ ONil) (default [] (oo_body x.2))) (all_operations d)) ∧
  report_errors d = length (filter (λ x : string * string * oop, Exists (λ r : string * list (string * osch), has_prefix "4" r.1 = true ∨ has_prefix "5" r.1 = true) (oo_responses x.2)) (all_operations d)).
Proof.
  assert (W : ∀ m, is_write m = true ↔ m = "POST" ∨ m = "PUT" ∨ m = "PATCH"). { intros m. unfold is_write. rewrite bool_decide_eq_true, !elem_of_cons, elem_of_nil. tauto. }
  assert (B : ∀ op, has_body_schema op = true ↔ Exists (λ c : string * osch, c.2 ≠ ONil) (default [] (oo_body op))).
  { intros op. unfold has_body_schema. rewrite existsb_exists, Exists_exists. split; intros (c & Hc & H); exists c; (split; [by apply elem_of_list_In|]); by destruct (c.2). }
  assert (X : ∀ op, has_error op = true ↔ Exists (λ r : string * list (string * osch), has_prefix "4" r.1 = true ∨ has_prefix "5" r.1 = true) (oo_responses op)).
  { intros op. unfold has_error. rewrite existsb_exists, Exists_exists. assert (Y : ∀ s, (match s with String c _ => bool_decide (c = "4"%char) || bool_decide (c = "5"%char) | "" => false end) = true ↔ has_prefix "4" s = true ∨ has_prefix "5" s = true).
    { intros [|c s]; [split; [done|by intros [?|?]]|]. rewrite orb_true_iff, !bool_decide_eq_true, !has_prefix_spec. split; [intros [->| ->]; [left|right]; by exists s|]. intros [[t [= -> _]]|[t [= -> _]]]; auto. }
    split; intros (r & Hr & H); exists r; (split; [by apply elem_of_list_In|]); by apply Y. }
  unfold report_write, report_bodies, report_errors. split; [|split]; f_equal; apply list_filter_iff; intros x; [apply W| |apply X]. rewrite andb_true_iff, W, B. done.
Qed.
(** C105k3: a tag is counted once each time an operation has it, the most frequent first, and by name where as many; so are the methods. The statuses are
    counted once for each response and are in the order of their names. *)
Theorem C105_tags d :
  (∀ t n, (t, n) ∈ report_tags d ↔ 0 < n ∧ n = sum_list ((λ x : string * string * oop, length (filter (λ y, y = t) (oo_tags x.2))) <$> all_operations d)) ∧
  (∀ l, l = report_tags d ∨ l = report_methods d → StronglySorted (λ a b : string * nat, b.2 < a.2 ∨ (b.2 = a.2 ∧ string_le a.1 b.1)) l) ∧
  (∀ s n, (s, n) ∈ report_statuses d ↔ 0 < n ∧ n = sum_list ((λ x : string * string * oop, length (filter (λ r : string * list (string * osch), r.1 = s) (oo_responses x.2))) <$> all_operations d)) ∧
  StronglySorted (λ a b : string * nat, string_le a.1 b.1) (report_statuses d).
Proof.
  assert (C : ∀ (g : string * string * oop → list string) l t, length (filter (λ y, y = t) (concat (g <$> l))) = sum_list ((λ x, length (filter (λ y, y = t) (g x))) <$> l)).
  { intros g l t. induction l as [|x l IH]; [done|]. cbn [fmap list_fmap concat]. rewrite filter_app, app_length, IH. done. }
  split; [|split; [|split]].
  - intros t n. unfold report_tags. rewrite (proj1 (C105_counts _ _)), C. done.
  - intros l Hl. assert (Q : StronglySorted (count_le true) l) by (destruct Hl as [->| ->]; apply C105_counts). clear Hl. induction Q as [|a l Q IH F]; constructor; [done|]. eapply Forall_impl; [exact F|]. intros b. unfold count_le. cbn. case_bool_decide as E; cbn; [right; by split|by left].
  - intros s n. unfold report_statuses. rewrite (proj1 (C105_counts _ _)). unfold all_responses. assert (K : ∀ l : list (string * string * oop), (concat ((λ x : string * string * oop, oo_responses x.2) <$> l)).*1 = concat ((λ x : string * string * oop, (oo_responses x.2).*1) <$> l)). { induction l as [|x l IH]; [done|]. cbn [fmap list_fmap concat]. rewrite fmap_app, IH. done. }
    rewrite K, C.
    assert (Z : ∀ l : list (string * list (string * osch)), length (filter (λ y, y = s) l.*1) = length (filter (λ r : string * list (string * osch), r.1 = s) l)). { induction l as [|r l IH]; [done|]. rewrite fmap_cons, !filter_cons. destruct (decide (r.1 = s)); cbn; by rewrite IH. }
    assert (Z' : ∀ l : list (string * string * oop), sum_list ((λ x : string * string * oop, length (filter (λ y, y = s) (oo_responses x.2).*1)) <$> l) = sum_list ((λ x : string * string * oop, length (filter (λ r : string * list (string * osch), r.1 = s) (oo_responses x.2))) <$> l)). { induction l as [|x l IH]; [done|]. cbn. by rewrite Z, IH. }
    rewrite <- Z'. done.
  - exact (proj2 (proj2 (C105_counts false _))).
Qed.

(** ** Security *)
(** What has to be met to call an operation: its own requirements or else the document's. *)
Definition requirements (d : odoc) (op : oop) : list (list string) := default (od_security d) (oo_security op).
(** C105l: an operation is protected exactly if every way to meet its requirements needs a scheme, and there is one; the three classes add up. *)
Theorem C105_protected_iff d op : security_class d op = Protected ↔ requirements d op ≠ [] ∧ ∀ r, r ∈ requirements d op → r ≠ [].
Proof.
  unfold security_class, requirements. assert (K : ∀ l : list (list string), (match l with [] => Unsecured | _ => if existsb (λ r : list string, bool_decide (r = [])) l then Public else Protected end) = Protected ↔ l ≠ [] ∧ ∀ r, r ∈ l → r ≠ []).
  { intros l. destruct l as [|r0 l]; [split; [done|by intros [? _]]|]. destruct (existsb _ (r0 :: l)) eqn:E.
    - split; [done|]. intros [_ H]. apply existsb_exists in E as (r & Hr & P). apply bool_decide_eq_true in P. apply elem_of_list_In in Hr. by apply H in Hr.
    - split; [|done]. intros _. split; [done|]. intros r Hr ->. assert (X : existsb (λ r : list string, bool_decide (r = [])) (r0 :: l) = true); [|congruence]. apply existsb_exists. exists []. split; [by apply elem_of_list_In|done]. }
  destruct (oo_security op) as [[|r l]|]; cbn [default]; [split; [done|by intros [? _]]|apply (K (r :: l))|apply K].
Qed.
Theorem C105_classes d : report_total d = security_count d Protected + security_count d Public + security_count d Unsecured.
Proof. unfold report_total, security_count. induction (all_operations d) as [|x l IH]; [done|]. rewrite !filter_cons. destruct (security_class d x.2); repeat (destruct (decide _); try congruence); cbn [length]; rewrite IH; lia. Qed.

(** ** Interfaces and functions *)
(** C105m: every interface is counted once, by how many implement it. *)
Theorem C105_interfaces l : let st := report_interfaces l in st_total st = st_single st + st_ambiguous st + st_none st ∧ st_total st = size (list_to_set (C := gset string) ((λ t, it_pkg t +:+ "." +:+ it_name t) <$> filter (λ t, it_iface t = true) l)).
Proof.
  assert (K : ∀ l seen st, st_total st = st_single st + st_ambiguous st + st_none st → st_total (interface_stats seen st l) = st_single (interface_stats seen st l) + st_ambiguous (interface_stats seen st l) + st_none (interface_stats seen st l) ∧
    st_total (interface_stats seen st l) = st_total st + size (list_to_set (C := gset string) ((λ t, it_pkg t +:+ "." +:+ it_name t) <$> filter (λ t, it_iface t = true) l) ∖ seen)).
  { clear l. induction l as [|t0 l IH]; intros seen st H; cbn [interface_stats]; [split; [done|]; change (list_to_set (C := gset string) ((λ t, it_pkg t +:+ "." +:+ it_name t) <$> filter (λ t, it_iface t = true) ([] : list itype))) with (∅ : gset string); assert (E : (∅ : gset string) ∖ seen = ∅) by set_solver; rewrite E, size_empty; lia|].
    rewrite filter_cons. destruct (it_iface t0) eqn:I; cbn [negb orb].
    - rewrite decide_True by done. rewrite fmap_cons, list_to_set_cons. set (key := it_pkg t0 +:+ "." +:+ it_name t0). set (R := list_to_set (C := gset string) ((λ t, it_pkg t +:+ "." +:+ it_name t) <$> filter (λ t, it_iface t = true) l)). destruct (bool_decide (key ∈ seen)) eqn:S0.
      + apply bool_decide_eq_true in S0. destruct (IH seen st H) as [I1 I2]. split; [done|]. rewrite I2. do 2 f_equal. fold R. clear - S0. set_solver.
      + apply bool_decide_eq_false in S0. destruct st as [n s a u m]. cbn in H. set (st' := match it_impls t0 with 0 => _ | 1 => _ | _ => _ end). assert (H' : st_total st' = S n ∧ st_total st' = st_single st' + st_ambiguous st' + st_none st'). { unfold st'. destruct (it_impls t0) as [|[|k]]; cbn; lia. } destruct H' as [H1 H2]. destruct (IH (({[key]} : gset string) ∪ seen) st' H2) as [I1 I2]. split; [done|]. rewrite I2, H1. fold R. cbn [st_total].
        assert (E : ({[key]} ∪ R) ∖ seen = ({[key]} : gset string) ∪ R ∖ ({[key]} ∪ seen)). { clear - S0. apply set_eq. intros x. rewrite !elem_of_difference, !elem_of_union, !elem_of_difference, !elem_of_union, !elem_of_singleton. destruct (decide (x = key)) as [->|]; intuition. } rewrite E. assert (Z : size (({[key]} : gset string) ∪ R ∖ ({[key]} ∪ seen)) = S (size (R ∖ ({[key]} ∪ seen)))). { rewrite size_union; [by rewrite size_singleton|]. clear. set_solver. } lia.
    - rewrite decide_False by done. apply IH. done. }
  destruct (K l ∅ (IStats 0 0 0 0 ∅) eq_refl) as [K1 K2]. cbn zeta. split; [done|]. unfold report_interfaces. rewrite K2. cbn [st_total]. rewrite difference_empty_L. done.
Qed.
(** C105n: the functions of a package are counted once, its methods twice. *)
Theorem C105_functions p : ip_types p ≡ₚ concat (ip_files p).*2 → count_functions p = sum_list (ip_files p).*1 + 2 * sum_list (concat (ip_files p).*2).*2.
Proof.
  intros H. unfold count_functions. assert (E : sum_list (ip_types p).*2 = sum_list (concat (ip_files p).*2).*2).
  { assert (P : (ip_types p).*2 ≡ₚ (concat (ip_files p).*2).*2) by (by rewrite H). clear H. induction P as [|x l l' _ IH|x y l|l1 l2 l3 _ IH1 _ IH2]; cbn in *; lia. }
  rewrite E. clear E H. induction (ip_files p) as [|[n ts] l IH]; [done|]. cbn [fmap list_fmap fst snd sum_list concat]. assert (S1 : ∀ l1 l2 : list nat, sum_list (l1 ++ l2) = sum_list l1 + sum_list l2) by (induction l1 as [|a l1 IHl]; intros l2; cbn; [done|]; rewrite IHl; lia). cbn in *. rewrite ?fmap_app, ?S1 in *. lia.
Qed.

(** ** Refutations *)
Definition nul : osch := ONil.
Definition ref_to (n : string) : osch := OSch ("#/components/schemas/" +:+ n) "" "" false nul nul nul [] [] [] [].
Definition ok_op (s : osch) : oop := OOp [] None [("200", [("application/json", s)])] [] None.
Definition one_path (op : oop) : oitem := OItem (Some op) None None None None None None.
Example C105_example : (λ i, (is_kind i, is_ref i)) <$> report_issues (ODoc {["/a" := one_path (ok_op (ref_to "User"))]} ∅ []) = [("dangling-ref", "User")] ∧ report_bodies_of (ODoc {["/a" := one_path (ok_op (ref_to "User"))]} ∅ []) = Some {["200" := SBody 1 0 0 0 1]}.
Proof. by vm_compute. Qed.
Definition doc2 : odoc := ODoc {["/a" := OItem (Some (OOp ["x"] None [("200", [("j", ref_to "User")]); ("404", []); ("default", [])] [("id", OSch "" "string" "" false nul nul nul [] [] [] [])] (Some []))) (Some (OOp ["x"; "y"] (Some [("j", ref_to "Ext")]) [("201", [("j", OSch "" "object" "" false nul (OSch "" "" "" false nul nul nul [] [] [] []) nul [] [] [] [])])] [] (Some [["jwt"]]))) None None None None None; "/b" := one_path (ok_op (OSch "" "array" "" false (ref_to "User") nul nul [] [] [] []))]}
  {["User" := OSch "" "object" "" false nul nul nul [OSch "" "string" "" false nul nul nul [] [] [] []] [] [] []; "Ext" := OSch "" "object" "External or unresolved type: m.Ext" false nul nul nul [] [] [] []]} [["key"]; []].
Example C105_example_no_nil : no_nil (od_comps doc2).
Proof. intros n H. unfold doc2 in H. cbn [od_comps] in H. apply lookup_insert_Some in H as [[_ H]|[_ H]]; [done|]. apply lookup_singleton_Some in H as [_ H]. done. Qed.
Example C105_example2 : (λ i, (is_method i, is_path i, is_kind i, is_ref i)) <$> report_issues doc2 = [("POST", "/a", "unresolved-type", "Ext"); ("GET", "/a", "default-status", "")] ∧ report_total doc2 = 3 ∧ report_state doc2 "full" = 1 ∧ report_state doc2 "partial" = 1 ∧ report_state doc2 "broken" = 1 ∧ report_methods doc2 = [("GET", 2); ("POST", 1)] ∧ report_tags doc2 = [("x", 2); ("y", 1)] ∧ report_statuses doc2 = [("200", 2); ("201", 1); ("404", 1); ("default", 1)] ∧
  security_count doc2 Protected = 1 ∧ security_count doc2 Public = 2 ∧ (default ∅ (report_bodies_of doc2)) !! "200" = Some (SBody 2 2 0 0 0) ∧ (default ∅ (report_bodies_of doc2)) !! "201" = Some (SBody 1 0 1 0 0) ∧ (default ∅ (report_bodies_of doc2)) !! "404" = Some (SBody 1 0 0 1 0) ∧ report_write doc2 = 1 ∧ report_bodies doc2 = 1 ∧ report_errors doc2 = 1.
Proof. by vm_compute. Qed.
Example C105_coverage_example : report_write doc2 = 1 ∧ report_bodies doc2 = 1 ∧ report_errors doc2 = 1 ∧ report_tags doc2 = [("x", 2); ("y", 1)] ∧ report_write (ODoc {["/a" := OItem None None (Some (OOp ["b"; "a"; "b"] (Some [("j", ONil)]) [("500", [])] [] None)) (Some (ok_op nul)) None None None]} ∅ []) = 1.
Proof. by vm_compute. Qed.
(** C105o: an operation whose component refers to one that is missing is full and clean. *)
Theorem C105_transitive_refuted : ∃ d t u n, od_comps d !! t = Some u ∧ mentions u n ∧ od_comps d !! n = None ∧ (∃ p m op w s, has_operation d p m op ∧ used op w s ∧ mentions s t) ∧ report_issues d = [] ∧ report_state d "full" = report_total d.
Proof.
  exists (ODoc {["/a" := one_path (ok_op (ref_to "User"))]} {["User" := OSch "" "object" "" false nul nul nul [ref_to "Gone"] [] [] []]} []), "User", (OSch "" "object" "" false nul nul nul [ref_to "Gone"] [] [] []), "Gone". split; [done|]. split; [eapply mentions_sub; [|apply (mentions_here "Gone")]; by apply (elem_of_list_lookup_2 _ 3)|]. split; [done|]. split; [|by vm_compute].
  exists "/a", "GET", (ok_op (ref_to "User")), ("response " +:+ "200"), (ref_to "User"). split; [exists (one_path (ok_op (ref_to "User"))), oi_get; split; [done|]; split; [by left|done]|]. split; [eapply used_response; [by left|by left]|]. apply (mentions_here "User").
Qed.
(** C105p: an operation that writes without a body is never reported, though the report has a kind for it. *)
Theorem C105_missing_body_refuted : (∃ d, report_write d = 1 ∧ report_bodies d = 0 ∧ report_state d "full" = 1) ∧ ∀ d i, i ∈ report_issues d → is_kind i ≠ "missing-body".
Proof.
  split; [exists (ODoc {["/a" := OItem None (Some (ok_op (OSch "" "string" "" false nul nul nul [] [] [] []))) None None None None None]} ∅ []); by vm_compute|].
  intros d i Hi E. assert (∃ op, has_operation d (is_path i) (is_method i) op ∧ reported (od_comps d) op (is_severity i) (is_kind i) (is_ref i)) as (op & _ & R) by (apply C105_issue_iff; by exists i). rewrite E in R. inversion R.
Qed.
(** C105q: the score is 100 though an operation is broken. *)
Theorem C105_score_refuted : ∃ clean total, clean < total ∧ report_score clean total = 100.
Proof. exists 199, 200. split; [lia|]. destruct (C105_score 199 200) as (H1 & _ & H2); [lia|lia|]. lia. Qed.
(** C105r: the order of the issues of an operation is that in which its responses are visited. *)
Theorem C105_order_refuted : ∃ op op', oo_responses op ≡ₚ oo_responses op' ∧ oo_tags op = oo_tags op' ∧ oo_body op = oo_body op' ∧ oo_params op = oo_params op' ∧ oo_security op = oo_security op' ∧ report_issues (ODoc {["/a" := one_path op]} ∅ []) ≠ report_issues (ODoc {["/a" := one_path op']} ∅ []).
Proof. exists (OOp [] None [("200", [("j", ref_to "A")]); ("400", [("j", ref_to "B")])] [] None), (OOp [] None [("400", [("j", ref_to "B")]); ("200", [("j", ref_to "A")])] [] None). split; [apply perm_swap|]. do 4 (split; [done|]). by vm_compute. Qed.
(** C105s: a nil component ends the report with a panic. *)
Theorem C105_nil_refuted : ∃ d, report_bodies_of d = None.
Proof. exists (ODoc {["/a" := one_path (ok_op (ref_to "User"))]} {["User" := ONil]} []). by vm_compute. Qed.
(** C105t: an empty response counts as empty by design although its status is neither of those that have no body, and as missing although it is. *)
Theorem C105_design_refuted : (∃ st, st ∉ ["204"; "205"; "304"] ∧ counts_missing st = false) ∧ counts_missing "205" = true.
Proof. split; [|done]. exists "400". split; [apply (bool_decide_unpack _); by vm_compute|done]. Qed.
(** C105u: which of two interfaces with one label is listed depends on the order of the packages. *)
Theorem C105_label_refuted : ∃ l l', l ≡ₚ l' ∧ st_labels (report_interfaces l) ≠ st_labels (report_interfaces l').
Proof.
  exists [IType "m/a/store" "Repo" true 2; IType "m/b/store" "Repo" true 3], [IType "m/b/store" "Repo" true 3; IType "m/a/store" "Repo" true 2]. split; [apply perm_swap|]. intros E. assert (X : st_labels (report_interfaces [IType "m/a/store" "Repo" true 2; IType "m/b/store" "Repo" true 3]) !! "store.Repo" = st_labels (report_interfaces [IType "m/b/store" "Repo" true 3; IType "m/a/store" "Repo" true 2]) !! "store.Repo") by (by rewrite E). by vm_compute in X.
Qed.
(** C105v: a package with one function and one method has three functions. *)
Theorem C105_functions_refuted : ∃ p, sum_list (ip_files p).*1 = 1 ∧ concat (ip_files p).*2 = [("T", 1)] ∧ ip_types p = [("T", 1)] ∧ count_functions p = 3.
Proof. exists (IPkg [(1, [("T", 1)])] [("T", 1)]). done. Qed.
Print Assumptions C105_bucket. Print Assumptions C105_bodies. Print Assumptions C105_counts. Print Assumptions C105_methods. Print Assumptions C105_protected_iff. Print Assumptions C105_classes. Print Assumptions C105_interfaces. Print Assumptions C105_functions.
Print Assumptions C105_transitive_refuted. Print Assumptions C105_missing_body_refuted. Print Assumptions C105_score_refuted. Print Assumptions C105_order_refuted. Print Assumptions C105_nil_refuted. Print Assumptions C105_design_refuted. Print Assumptions C105_label_refuted. Print Assumptions C105_functions_refuted.
Print Assumptions C105_coverage. Print Assumptions C105_tags.
