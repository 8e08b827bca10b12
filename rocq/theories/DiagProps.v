(** * C65: pages of a diagram. *)
From Coq Require Import Ascii ZArith.
From stdpp Require Import base numbers list strings gmap relations.
From Verif Require Import StrLib SccSpec DiagModel DiagSpec DiagProofs DiagPages DiagTree.

(** The depth of a function in a call graph is the least number of calls that lead to it from a start. *)
Theorem C65_depth iter data x d : is_order iter → unique_ids data → graph_depths iter data !! x = Some d ↔ calls_away data x d.
Proof. apply graph_depths_spec. Qed.
Print Assumptions C65_depth.

(** The diagram a request pages through: what nodes are listed does not depend on the page; each is listed once, those of a call graph in the diagram's order. *)
Lemma listing_exists iter cg data depth f : is_order iter → unique_ids data →
  ∃ listing, NoDup (n_id <$> listing) ∧ (∀ n, n ∈ listing ↔ listed cg data depth f n) ∧ (cg = true → sublist listing (d_nodes data))
    ∧ ∀ page size, page_of iter cg data (Request page size depth f) = 
        match page_slice page size listing with
        | None => None
        | Some ns => Some (let data' := if cg then data else DData (tree_order true data) (d_edges data) in let parents := (foldl (add_parent (d_nodes data')) (node_ids ns, []) ns).2 in let fd := filtered iter cg depth f data' in 
            PageResult (ns ++ parents) (edges_among (node_ids ns) (d_edges fd)) (length (d_nodes fd)) (length (d_edges fd)) (bool_decide (length (ns ++ parents) < length (d_nodes fd))))
        end ∧ length (d_nodes (filtered iter cg depth f (if cg then data else DData (tree_order true data) (d_edges data)))) = length listing.
Proof.
  intros Hi Hu. destruct cg.
  - destruct (filtered_nodes iter true depth f data Hi Hu) as [H1 H2]. exists (d_nodes (filtered iter true depth f data)). split; [eapply sublist_nodup; [|exact Hu]; by apply fmap_sublist|]. split; [done|]. split; [done|]. intros page size. split; [|done]. unfold page_of. cbn [r_page r_size r_depth r_filters]. done.
  - pose proof (tree_order_perm true data Hu) as Hp. set (data' := DData (tree_order true data) (d_edges data)). assert (unique_ids data') as Hu'. { unfold unique_ids, data'. cbn [d_nodes]. by rewrite Hp. }
    destruct (filtered_nodes iter false depth f data' Hi Hu') as [H1 H2]. set (fd := filtered iter false depth f data') in *. assert (unique_ids fd) as Hf. { eapply sublist_nodup; [|exact Hu']. by apply fmap_sublist. }
    pose proof (tree_order_perm false fd Hf) as Hpf. exists (tree_order false fd). split; [by rewrite Hpf|]. split; [|split; [done|]].
    + intros n. rewrite Hpf, H2. unfold listed, data'. cbn [d_nodes]. rewrite Hp. split; intros (? & ? & _); done.
    + intros page size. split; [done|]. by rewrite Hpf.
Qed.
Lemma edges_on_page iter cg depth f data (listing ns : list dnode) e : (∀ n, n ∈ d_nodes (filtered iter cg depth f data) ↔ n ∈ listing) → (∀ n, n ∈ ns → n ∈ listing) →
  e ∈ edges_among (node_ids ns) (d_edges (filtered iter cg depth f data)) ↔ e ∈ d_edges data ∧ e_src e ∈ n_id <$> ns ∧ e_dst e ∈ n_id <$> ns.
Proof.
  intros Hl Hns. unfold edges_among. rewrite elem_of_list_filter. destruct (filtered_edges iter cg depth f data) as [_ He]. rewrite He.
  assert (∀ x, x ∈ node_ids ns ↔ x ∈ n_id <$> ns) as Hid by (intros x; apply elem_of_list_to_set). rewrite !Hid.
  assert (∀ x, x ∈ n_id <$> ns → x ∈ node_ids (d_nodes (filtered iter cg depth f data))) as Hin.
  { intros x Hx. apply elem_of_list_fmap in Hx as (n & -> & Hn). apply elem_of_node_ids. exists n. split; [|done]. by apply Hl, Hns. }
  split; [intros ([? ?] & ? & _); done|]. intros (? & H1 & H2). split; [done|]. split; [done|]. split; by apply Hin.
Qed.

(** Every request's pages are slices of one listing of the nodes asked for. Together they show each of those nodes exactly once. *)
Theorem C65_pages iter cg data depth f : is_order iter → unique_ids data →
  ∃ listing, NoDup (n_id <$> listing) ∧ (∀ n, n ∈ listing ↔ listed cg data depth f n) ∧ (cg = true → sublist listing (d_nodes data))
    ∧ ∀ k size, 1 ≤ size → (Z.of_nat (S k) * Z.of_nat size < 2 ^ 63)%Z →
      ∃ pg parents, page_of iter cg data (Request (Z.of_nat (S k)) (Z.of_nat size) depth f) = Some pg
        ∧ p_nodes pg = take size (drop (k * size) listing) ++ parents
        ∧ p_total_nodes pg = length listing
        ∧ (∀ e, e ∈ p_edges pg ↔ e ∈ d_edges data ∧ e_src e ∈ n_id <$> take size (drop (k * size) listing) ∧ e_dst e ∈ n_id <$> take size (drop (k * size) listing))
        (* the functions that enclose those on the page, each once *)
        ∧ (∀ p, p ∈ parents → ∃ n, n ∈ take size (drop (k * size) listing) ∧ enclosing (d_nodes data) (take size (drop (k * size) listing)) n p)
        ∧ NoDup (n_id <$> p_nodes pg)
        ∧ (∀ n q, n ∈ take size (drop (k * size) listing) → n_parent n ≠ "" → q ∈ d_nodes data → n_id q = n_parent n → n_id q ∈ n_id <$> p_nodes pg).
Proof.
  intros Hi Hu. destruct (listing_exists iter cg data depth f Hi Hu) as (listing & L1 & L2 & L3 & L4). exists listing. split; [done|]. split; [done|]. split; [done|]. intros k size Hs Hk.
  destruct (L4 (Z.of_nat (S k)) (Z.of_nat size)) as [Hp Hlen]. rewrite Hp, page_slice_spec by done. set (ns := take size (drop (k * size) listing)). cbv zeta.
  set (data' := if cg then data else DData (tree_order true data) (d_edges data)) in *.
  assert (∀ n, n ∈ d_nodes data' ↔ n ∈ d_nodes data) as Hall. { intros n. unfold data'. destruct cg; [done|]. cbn [d_nodes]. by rewrite (tree_order_perm true data Hu). }
  assert (unique_ids data') as Hu'. { unfold data'. destruct cg; [done|]. unfold unique_ids. cbn [d_nodes]. by rewrite (tree_order_perm true data Hu). }
  assert (d_edges data' = d_edges data) as Hed by (by unfold data'; destruct cg).
  assert (∀ n, n ∈ ns → n ∈ listing) as Hsub. { intros n Hn. unfold ns in Hn. apply elem_of_take in Hn as (i & Hn & _). rewrite lookup_drop in Hn. by eapply elem_of_list_lookup_2. }
  assert (NoDup (n_id <$> ns)) as Hnd. { eapply sublist_nodup; [|exact L1]. apply fmap_sublist. unfold ns. etransitivity; [apply sublist_take|apply sublist_drop]. }
  destruct (parents_spec (d_nodes data') ns ns (node_ids ns) []) as (R1 & R2 & _ & R4); [by rewrite app_nil_r|apply NoDup_nil_2|by intros p ?%elem_of_nil|done|].
  set (parents := (foldl (add_parent (d_nodes data')) (node_ids ns, []) ns).2) in *.
  eexists _, parents. split; [reflexivity|]. cbn [p_nodes p_edges p_total_nodes]. split; [done|]. split; [done|]. split; [|split; [|split]].
  - intros e. rewrite <- Hed. apply (edges_on_page iter cg depth f data' listing ns); [|done]. intros n. rewrite L2. destruct (filtered_nodes iter cg depth f data' Hi Hu') as [_ Hf]. rewrite Hf. unfold listed. rewrite Hall.
    unfold data'. destruct cg; [done|]. split; intros (? & ? & _); done.
  - intros p Hp'. destruct (R1 p Hp') as (n & Hn & (E1 & E2 & q & Hq & E3)). exists n. split; [done|]. split; [done|]. split; [done|]. exists q. split; [by apply Hall|done].
  - rewrite fmap_app. apply NoDup_app. split; [done|]. split; [|done]. intros x Hx Hx'. apply elem_of_list_fmap in Hx as (n & -> & Hn). apply elem_of_list_fmap in Hx' as (p & Hnp & Hp'). destruct (R1 p Hp') as (m & Hm & (E1 & E2 & q & Hq & E3 & ->)). apply (E2 n Hn). rewrite Hnp. exact E3.
  - intros n q Hn Hpar Hq Hid. assert (n_parent n ∈ node_ids (ns ++ parents)) as Hin. { apply R4; [done|done|]. exists q. split; [by apply Hall|done]. } rewrite Hid. by apply elem_of_list_to_set in Hin.
Qed.
Print Assumptions C65_pages.
Theorem C65_pages_cover {A} (listing : list A) (size n : nat) : length listing ≤ n * size → mjoin ((λ k, take size (drop (k * size) listing)) <$> seq 0 n) = listing.
Proof. apply pages_cover. Qed.
Print Assumptions C65_pages_cover.

(** On a first page with no enclosing function to add, [HasMore] says whether there are more nodes. *)
Theorem C65_has_more_partial iter cg data depth f size pg : is_order iter → unique_ids data → 1 ≤ size → (Z.of_nat size < 2 ^ 63)%Z →
  page_of iter cg data (Request 1 (Z.of_nat size) depth f) = Some pg → (∀ n, n ∈ p_nodes pg → n_parent n = "") →
  p_has_more pg = true ↔ ∃ n, listed cg data depth f n ∧ n_id n ∉ n_id <$> p_nodes pg.
Proof.
  intros Hi Hu Hs Hz Hpg Hpar. destruct (listing_exists iter cg data depth f Hi Hu) as (listing & L1 & L2 & L3 & L4). destruct (L4 (Z.of_nat 1) (Z.of_nat size)) as [Hp Hlen]. change (Z.of_nat 1) with 1%Z in Hp. rewrite Hpg in Hp.
  change 1%Z with (Z.of_nat 1) in Hp. rewrite page_slice_spec in Hp by lia. rewrite Nat.mul_0_l, drop_0 in Hp. cbv zeta in Hp. apply (inj Some) in Hp. set (ns := take size listing) in *.
  set (data' := if cg then data else DData (tree_order true data) (d_edges data)) in *.
  destruct (parents_spec (d_nodes data') ns ns (node_ids ns) []) as (R1 & _); [by rewrite app_nil_r|apply NoDup_nil_2|by intros p ?%elem_of_nil|done|].
  assert ((foldl (add_parent (d_nodes data')) (node_ids ns, []) ns).2 = []) as Hno.
  { apply elem_of_nil_inv. intros p Hp'. destruct (R1 p Hp') as (n & Hn & (E1 & _)). apply E1, Hpar. rewrite Hp. cbn [p_nodes]. apply elem_of_app. by left. }
  rewrite Hno, app_nil_r in Hp. rewrite Hp. cbn [p_has_more p_nodes]. rewrite bool_decide_eq_true, Hlen. unfold ns. rewrite take_length. split.
  - intros Hlt. assert (is_Some (listing !! size)) as [n Hn] by (apply lookup_lt_is_Some; lia). exists n. split; [apply L2; by eapply elem_of_list_lookup_2|]. intros Hin. apply elem_of_list_fmap in Hin as (m & Hid & Hm). apply elem_of_take in Hm as (i & Hi' & Hlt').
    assert (i = size); [|lia]. eapply NoDup_lookup; [exact L1| |]; rewrite list_lookup_fmap; [by rewrite Hi'|rewrite Hn; cbn; by rewrite Hid].
  - intros (n & Hn & Hin). apply L2 in Hn. destruct (decide (length listing ≤ size)) as [Hle|Hle]; [|lia]. exfalso. apply Hin. rewrite take_ge by done. apply elem_of_list_fmap. by exists n.
Qed.
Print Assumptions C65_has_more_partial.

(** ** Tracker trees *)
(** Ordering a tree's nodes keeps every node and puts them branch by branch: after each start come the nodes it leads to, unless an earlier start led to them, and the main start is first. *)
Theorem C65_branch_order data : unique_ids data → (∃ n, n ∈ d_nodes data ∧ tree_start (call_edges (d_edges data)) n) →
  tree_order false data ≡ₚ d_nodes data
  ∧ ∃ roots segs rest, tree_order false data = mjoin segs ++ rest ∧ length segs = length roots
    ∧ (∀ r, r ∈ roots → ∃ n, n ∈ d_nodes data ∧ n_id n = r ∧ tree_start (call_edges (d_edges data)) n)
    ∧ (∀ n, n ∈ d_nodes data → tree_start (call_edges (d_edges data)) n → ¬ main_node n → n_id n ∈ roots)
    ∧ ((∃ n, n ∈ d_nodes data ∧ tree_start (call_edges (d_edges data)) n ∧ main_node n) → ∃ n l, tree_order false data = n :: l ∧ tree_start (call_edges (d_edges data)) n ∧ main_node n)
    ∧ (∀ i r seg, roots !! i = Some r → segs !! i = Some seg →
        (∀ n, n ∈ seg ↔ n ∈ d_nodes data ∧ rtc (drawn (call_edges (d_edges data))) r (n_id n) ∧ ∀ j r', j < i → roots !! j = Some r' → ¬ rtc (drawn (call_edges (d_edges data))) r' (n_id n))
        ∧ (seg = [] ∨ ∃ n l, seg = n :: l ∧ n_id n = r)).
Proof.
  intros Hu Hs. split; [by apply tree_order_perm|]. destruct (tree_order_spec false data Hu) as (segs & rest & T1 & T2 & T3 & T4 & T5 & T6). change (shown_edges false data) with (call_edges (d_edges data)) in *.
  destruct (tree_roots_spec (call_edges (d_edges data)) (d_nodes data) Hs) as (R1 & R2 & R3). exists (tree_roots (call_edges (d_edges data)) (d_nodes data)), segs, rest. split; [done|]. split; [done|]. split; [done|]. split; [done|]. split; [|done].
  intros Hm. destruct (R3 Hm) as (n & rs & Hr & Hn & Hst & Hmn). destruct segs as [|seg segs]; [by rewrite Hr in T2|]. destruct (T6 0 (n_id n) seg) as [H1 H2]; [by rewrite Hr|done|].
  assert (n ∈ seg) as Hin. { apply H1. split; [done|]. split; [done|]. intros; lia. }
  destruct H2 as [-> | (m & l & -> & Hid)]; [by apply elem_of_nil in Hin|]. assert (m = n) as ->.
  { assert (m ∈ d_nodes data) as Hm' by (apply H1; by left). assert (node_at (d_nodes data) (n_id n) = Some n) as E1 by (by apply node_at_unique). assert (node_at (d_nodes data) (n_id m) = Some m) as E2 by (by apply node_at_unique). rewrite Hid in E2. congruence. }
  exists n, (l ++ mjoin segs ++ rest). split; [|done]. rewrite T1. cbn. by rewrite <- app_assoc.
Qed.
Print Assumptions C65_branch_order.

(** Every uncached request for a tree orders the shared nodes again. With one main node that changes nothing. *)
Theorem C65_reorder_partial iter data r : unique_ids data → one_main data → page_of iter false (DData (tree_order true data) (d_edges data)) r = page_of iter false data r.
Proof. apply page_of_reordered. Qed.
Print Assumptions C65_reorder_partial.

(** ** The cache *)
(** Requests with plain terms have different keys. *)
Theorem C65_cache_key_partial diagram r r' : plain_request r → plain_request r' → cache_key diagram r = cache_key diagram r' → r = r'.
Proof. apply cache_key_inj. Qed.
Print Assumptions C65_cache_key_partial.
(** As long as nobody changes the project and terms are plain, every answer is the page asked for. *)
Theorem C65_cache_right_partial {D} diagram (work : D → request → option page_result) d s s' r p :
  rtc (quiet diagram work) (Server d ∅ []) s → serve diagram work s (Some (r, p)) s' → plain_request r → work d r = Some p.
Proof.
  intros Hrun Hs Hr.
  set (ok := λ s : server D, s_data s = d ∧ (∀ r p, (r, p) ∈ s_making s → plain_request r ∧ work d r = Some p) ∧ ∀ k p, s_cache s !! k = Some p → ∃ r, plain_request r ∧ k = cache_key diagram r ∧ work d r = Some p).
  assert (ok s) as (H1 & H2 & H3).
  { assert (ok (Server d ∅ [])) as H0. { split; [done|]. split; [by intros ? ? ?%elem_of_nil|]. intros k q Hk. cbn in Hk. by rewrite lookup_empty in Hk. }
    revert H0. induction Hrun as [|a b c Hab _ IH]; [done|]. intros Ha. apply (IH Hs). clear IH Hs. destruct Ha as (A1 & A2 & A3). destruct Hab as (o & Hstep & Hd & Hpl). destruct Hstep as [a r1 p1 Hk|a r1 p1 Hk Hw|d1 cache m1 m2 r1 p1|a d1]; cbn [s_data s_cache s_making] in *.
    - done.
    - split; [done|]. cbn [s_making s_cache]. split; [|done]. intros r2 p2 Hin. split; [by apply (Hpl r2 p2)|]. apply elem_of_app in Hin as [Hin|Hin]; [by apply A2|]. apply elem_of_list_singleton in Hin. injection Hin as -> ->. by rewrite <- A1.
    - split; [done|]. cbn [s_making s_cache]. split; [intros r2 p2 Hin; apply A2; apply elem_of_app in Hin as [?|?]; apply elem_of_app; [by left|right; by right]|].
      destruct (A2 r1 p1) as [Q1 Q2]; [apply elem_of_app; right; by left|]. intros k q Hk. apply lookup_insert_Some in Hk as [[<- <-]|[_ Hk]]; [by exists r1|by apply A3].
    - split; [cbn [s_data]; congruence|]. cbn [s_making s_cache]. split; [done|]. intros k q Hk. by rewrite lookup_empty in Hk. }
  inversion Hs as [s1 r1 p1 Hk E1 E2 E3|s1 r1 p1 Hk Hw|d1 cache m1 m2 r1 p1 E1 E2 E3|s1 d1]; subst.
  - destruct (H3 _ _ Hk) as (r2 & Hr2 & Hkey & Hw). apply cache_key_inj in Hkey; [|done|done]. by subst.
  - cbn [s_making] in H2. apply H2. apply elem_of_app. right. by left.
Qed.
Print Assumptions C65_cache_right_partial.

(** ** What the full statements would ask for *)
Definition no_filters : filters := Filters [] [] [] [] [] [] "".
Definition plain_node (id label parent : string) : dnode := DNode id label label parent "p" "f.go:1" [] "" "" None "exported" 1 false.
Lemma id_order : is_order (@id (list string)).
Proof. by intros l. Qed.
(** The last page says that there are more nodes. *)
Definition two_nodes : ddata := DData [plain_node "node_0" "main" ""; plain_node "node_1" "run" ""] [DEdge "node_0" "node_1" "calls"].
Theorem C65_has_more_at_end_refuted : ∃ data pg next, unique_ids data ∧ page_of id true data (Request 2 1 (-1) no_filters) = Some pg ∧ p_nodes pg ≠ [] ∧ p_has_more pg = true
  ∧ page_of id true data (Request 3 1 (-1) no_filters) = Some next ∧ p_nodes next = [] ∧ p_has_more next = true.
Proof.
  exists two_nodes. eexists _, _. split; [apply (bool_decide_unpack _); vm_compute; exact I|]. split; [vm_compute; reflexivity|]. split; [done|]. split; [done|]. split; [vm_compute; reflexivity|]. done.
Qed.
Print Assumptions C65_has_more_at_end_refuted.
(** A page says that there are no more nodes though the next one shows another: the enclosing function that was added counts as one of the nodes asked for. *)
Definition literals : ddata := DData [plain_node "node_0" "main" ""; plain_node "node_1" "FuncLit:1" "node_0"; plain_node "node_2" "FuncLit:2" "node_0"] [].
Definition ask_literals : filters := Filters [] ["funclit"] [] [] [] [] "".
Theorem C65_no_more_refuted : ∃ data f pg next, unique_ids data ∧ page_of id true data (Request 1 1 (-1) f) = Some pg ∧ p_has_more pg = false
  ∧ page_of id true data (Request 2 1 (-1) f) = Some next ∧ ∃ n, n ∈ p_nodes next ∧ wanted f n ∧ n_id n ∉ n_id <$> p_nodes pg.
Proof.
  exists literals, ask_literals. eexists _, _. split; [apply (bool_decide_unpack _); vm_compute; exact I|]. split; [vm_compute; reflexivity|]. split; [done|]. split; [vm_compute; reflexivity|].
  eexists. split; [by left|]. split; [apply node_stays_spec; vm_compute; reflexivity|]. cbn. by apply (bool_decide_unpack (_ ∉ _)).
Qed.
Print Assumptions C65_no_more_refuted.
(** The page and the size used are the ones asked for when they make sense, and make sense in any case. *)
Theorem C65_asked page size default_size : (1 ≤ default_size)%Z →
  (1 ≤ asked_page page)%Z ∧ (1 ≤ asked_size default_size size ≤ 2000)%Z ∧ ((1 ≤ page)%Z → asked_page page = page) ∧ ((1 ≤ size ≤ 2000)%Z → asked_size default_size size = size) ∧
  ((page < 1)%Z → asked_page page = 1%Z) ∧ ((2000 < size)%Z → asked_size default_size size = 2000%Z) ∧ ((size < 1)%Z → (default_size ≤ 2000)%Z → asked_size default_size size = default_size).
Proof.
  intros Hd. unfold asked_page, asked_size. destruct (bool_decide_reflect (page < 1)%Z), (bool_decide_reflect (size < 1)%Z); cbv zeta.
  all: first [destruct (bool_decide_reflect (2000 < default_size)%Z) | idtac]; destruct (bool_decide_reflect (2000 < size)%Z); repeat split; intros; lia.
Qed.
Example asked_shown : asked_page (-3) = 1%Z ∧ asked_size 100 5000 = 2000%Z ∧ asked_size 100 0 = 100%Z.
Proof. done. Qed.
Print Assumptions C65_asked.
(** A page number near the largest int makes the slice's start negative: the server panics. *)
Theorem C65_page_overflow_refuted : ∃ page, (1 ≤ page < 2 ^ 63)%Z ∧ asked_page page = page ∧ ∀ data, page_of id true data (Request (asked_page page) (asked_size 100 100) (-1) no_filters) = None.
Proof.
  exists 9223372036854775807%Z. split; [lia|]. split; [done|]. intros data. unfold page_of. cbn [r_page r_size r_depth r_filters]. unfold page_slice.
  replace (wrap64 (wrap64 (asked_page 9223372036854775807 - 1) * asked_size 100 100)) with (-200)%Z by (vm_compute; reflexivity). cbv zeta. rewrite bool_decide_eq_true_2 by lia. unfold go_slice. rewrite bool_decide_eq_false_2; [done|]. lia.
Qed.
Print Assumptions C65_page_overflow_refuted.
(** Functions that call each other and that nobody else calls are never shown when a depth is asked for. *)
Definition lone_cycle : ddata := DData [plain_node "node_0" "main" ""; plain_node "node_1" "even" ""; plain_node "node_2" "odd" ""] [DEdge "node_1" "node_2" "calls"; DEdge "node_2" "node_1" "calls"].
Theorem C65_cycle_hidden_refuted : ∃ data n, unique_ids data ∧ n ∈ d_nodes data ∧ wanted no_filters n
  ∧ ∀ iter depth r pg, is_order iter → (0 ≤ depth)%Z → r_depth r = depth → r_filters r = no_filters → page_of iter true data r = Some pg → n ∉ p_nodes pg.
Proof.
  exists lone_cycle, (plain_node "node_1" "even" ""). assert (unique_ids lone_cycle) as Hu by (apply (bool_decide_unpack _); vm_compute; exact I). split; [done|]. split; [right; by left|]. split; [by apply node_stays_spec|].
  intros iter depth r pg Hi Hd <- Hf. destruct r as [page size depth f]. cbn [r_depth r_filters] in *. subst f. intros Hpg Hin. destruct (listing_exists iter true lone_cycle depth no_filters Hi Hu) as (listing & _ & L2 & _ & L4). destruct (L4 page size) as [Hp _]. rewrite Hpg in Hp.
  destruct (page_slice page size listing) as [ns|] eqn:Es; [|done]. cbv zeta in Hp. apply (inj Some) in Hp. rewrite Hp in Hin. cbn [p_nodes] in Hin.
  assert (∀ n, n ∈ ns → n ∈ listing) as Hns.
  { intros n Hn. unfold page_slice in Es. set (start := wrap64 _) in Es. cbv zeta in Es. destruct (bool_decide (start < Z.of_nat (length listing))%Z); [|injection Es as <-; by apply elem_of_nil in Hn]. unfold go_slice in Es. destruct (bool_decide (0 ≤ start ∧ _ ∧ _)%Z); [|done]. injection Es as <-. apply elem_of_take in Hn as (i & Hn & _). rewrite lookup_drop in Hn. by eapply elem_of_list_lookup_2. }
  apply elem_of_app in Hin as [Hin|Hin].
  - apply Hns, L2 in Hin as (_ & _ & Hc). destruct (Hc eq_refl Hd) as (d & ((x & (m & Hm & Hid & Hst) & Hn) & _) & _).
    assert (∀ a b, drawn (d_edges lone_cycle) a b → b ∈ ["node_1"; "node_2"] → a ∈ ["node_1"; "node_2"]) as Hback.
    { intros a b (e & He & <- & <-) _. cbn in He. apply elem_of_cons in He as [-> | He]; [by left|]. apply elem_of_list_singleton in He as ->. right. by left. }
    assert (x ∈ ["node_1"; "node_2"]) as Hx. { clear -Hn Hback. cbn [n_id plain_node] in Hn. assert ("node_1" ∈ ["node_1"; "node_2"]) as H1 by (by left). revert H1. induction Hn as [|d a b c Hab _ IH]; [done|]. intros Hc. eapply Hback; [exact Hab|]. by apply IH. }
    cbn in Hm. apply elem_of_cons in Hm as [-> | Hm]; [cbn in Hid; subst x; by apply (bool_decide_unpack (_ ∉ _)) in Hx|]. apply elem_of_cons in Hm as [-> | Hm].
    + destruct Hst as [Hst|[Hst|Hst]]; [|done|done]. apply (Hst "node_2"). cbn in Hid. subst x. exists (DEdge "node_2" "node_1" "calls"). split; [right; by left|done].
    + apply elem_of_list_singleton in Hm as ->. destruct Hst as [Hst|[Hst|Hst]]; [|done|done]. apply (Hst "node_1"). cbn in Hid. subst x. exists (DEdge "node_1" "node_2" "calls"). split; [by left|done].
  - destruct (parents_spec (d_nodes lone_cycle) ns ns (node_ids ns) []) as (R1 & _); [by rewrite app_nil_r|apply NoDup_nil_2|by intros p ?%elem_of_nil|done|]. destruct (R1 _ Hin) as (n & Hn & (E1 & _)). apply Hns, L2 in Hn as (Hn & _). cbn in Hn. apply E1.
    repeat (apply elem_of_cons in Hn as [-> | Hn]; [done|]). by apply elem_of_nil in Hn.
Qed.
Print Assumptions C65_cycle_hidden_refuted.
(** An edge whose ends are on different pages is on none. *)
Theorem C65_edge_on_no_page_refuted : ∃ data e size, unique_ids data ∧ e ∈ d_edges data ∧ 1 ≤ size
  ∧ ∀ k, (Z.of_nat (S k) * Z.of_nat size < 2 ^ 63)%Z → ∃ pg, page_of id true data (Request (Z.of_nat (S k)) (Z.of_nat size) (-1) no_filters) = Some pg ∧ e ∉ p_edges pg.
Proof.
  exists two_nodes, (DEdge "node_0" "node_1" "calls"), 1. assert (unique_ids two_nodes) as Hu by (apply (bool_decide_unpack _); vm_compute; exact I). split; [done|]. split; [by left|]. split; [lia|]. intros k Hk.
  destruct (C65_pages id true two_nodes (-1) no_filters id_order Hu) as (listing & _ & _ & _ & H). destruct (H k 1) as (pg & parents & Hpg & _ & _ & He & _); [lia|done|]. exists pg. split; [done|]. intros Hin. apply He in Hin as (_ & H1 & H2). revert H1 H2. cbn [e_src e_dst].
  destruct (drop (k * 1) listing) as [|n l]; cbn; [by intros ?%elem_of_nil|]. rewrite take_0. cbn. intros <-%elem_of_list_singleton ?%elem_of_list_singleton. done.
Qed.
Print Assumptions C65_edge_on_no_page_refuted.
(** Two requests that ask for different nodes have the same key. *)
Theorem C65_cache_key_refuted : ∃ diagram r r' data, cache_key diagram r = cache_key diagram r' ∧ unique_ids data ∧ page_of id true data r ≠ page_of id true data r'.
Proof.
  exists "call-graph", (Request 1 100 (-1) (Filters ["p q"] [] [] [] [] [] "")), (Request 1 100 (-1) (Filters ["p"; "q"] [] [] [] [] [] "")), two_nodes.
  split; [done|]. split; [apply (bool_decide_unpack _); vm_compute; exact I|]. vm_compute. done.
Qed.
Print Assumptions C65_cache_key_refuted.
(** A page made before the project was changed is kept and served after it. *)
Theorem C65_stale_page_refuted : ∃ (d d' : ddata) s r p, let step := λ a b, ∃ o, serve "call-graph" (page_of id true) a o b in
  rtc step (Server d ∅ []) s ∧ s_data s = d' ∧ s_making s = [] ∧ serve "call-graph" (page_of id true) s (Some (r, p)) s ∧ plain_request r ∧ page_of id true d' r ≠ Some p.
Proof.
  set (r := Request 1 100 (-1) no_filters). destruct (page_of id true two_nodes r) as [p|] eqn:Ep; [|by vm_compute in Ep]. exists two_nodes, (DData [] []), (Server (DData [] []) (<[cache_key "call-graph" r := p]> ∅) []), r, p. cbv zeta. split; [|split; [done|split; [done|split; [|split]]]].
  - eapply rtc_l; [eexists; apply (serve_make _ _ _ r p); [apply lookup_empty|exact Ep]|]. cbn [s_data s_cache s_making app]. eapply rtc_l; [eexists; apply (serve_switch _ _ _ (DData [] []))|]. cbn [s_making]. eapply rtc_l; [eexists; apply (serve_store _ _ _ _ [] [] r p)|]. done.
  - apply serve_hit. apply lookup_insert.
  - split; [cbn; lia|]. repeat split; by apply Forall_nil_2.
  - vm_compute in Ep. injection Ep as <-. vm_compute. done.
Qed.
Print Assumptions C65_stale_page_refuted.
(** Asking for the methods of a type also shows every function without a receiver. *)
Theorem C65_receiver_filter_refuted : ∃ data f n, f_receivers f = ["Server"] ∧ unique_ids data ∧ n_receiver n = "" ∧ ∃ pg, page_of id true data (Request 1 100 (-1) f) = Some pg ∧ n ∈ p_nodes pg.
Proof.
  exists two_nodes, (Filters [] [] [] ["Server"] [] [] ""), (plain_node "node_1" "run" ""). split; [done|]. split; [apply (bool_decide_unpack _); vm_compute; exact I|]. split; [done|]. eexists. split; [vm_compute; reflexivity|]. cbn [p_nodes]. right. by left.
Qed.
Print Assumptions C65_receiver_filter_refuted.
(** With two main nodes the order flips with every request: one node is on both pages and another on none. *)
Definition two_mains : ddata := DData [plain_node "node_0" "main" ""; plain_node "node_1" "main" ""] [].
Theorem C65_reorder_refuted : ∃ data pg1 pg2 n, unique_ids data ∧ page_of id false data (Request 1 1 (-1) no_filters) = Some pg1
  ∧ page_of id false (DData (tree_order true data) (d_edges data)) (Request 2 1 (-1) no_filters) = Some pg2 ∧ p_nodes pg1 = p_nodes pg2 ∧ listed false data (-1) no_filters n ∧ n ∉ p_nodes pg1.
Proof.
  exists two_mains. eexists _, _, (plain_node "node_1" "main" ""). split; [apply (bool_decide_unpack _); vm_compute; exact I|]. split; [vm_compute; reflexivity|]. split; [vm_compute; reflexivity|]. split; [done|]. split.
  - split; [right; by left|]. split; [by apply node_stays_spec|done].
  - cbn [p_nodes]. intros H%elem_of_list_singleton. done.
Qed.
Print Assumptions C65_reorder_refuted.

(** ** Examples *)
Definition small : ddata := DData [plain_node "node_0" "main" ""; plain_node "node_1" "serve" ""; plain_node "node_2" "FuncLit:1" "node_1"; plain_node "node_3" "log" ""]
  [DEdge "node_0" "node_1" "calls"; DEdge "node_1" "node_2" "calls"; DEdge "node_2" "node_3" "calls"; DEdge "node_1" "node_3" "calls"].
Example small_ok : unique_ids small ∧ one_main small ∧ (∃ n, n ∈ d_nodes small ∧ tree_start (call_edges (d_edges small)) n).
Proof.
  split; [apply (bool_decide_unpack _); vm_compute; exact I|]. split.
  - intros n m Hn Hm. cbn in Hn, Hm. repeat (apply elem_of_cons in Hn as [-> | Hn]; [repeat (apply elem_of_cons in Hm as [-> | Hm]; [intros [?|?] [?|?]; done|]); by apply elem_of_nil in Hm|]). by apply elem_of_nil in Hn.
  - exists (plain_node "node_0" "main" ""). split; [by left|]. left. intros x (e & He & _ & Hd). cbn in He. repeat (apply elem_of_cons in He as [-> | He]; [done|]). by apply elem_of_nil in He.
Qed.
Example small_depths : map_to_list (graph_depths id small) ≡ₚ [("node_0", 0); ("node_1", 1); ("node_2", 2); ("node_3", 2)].
Proof. apply (bool_decide_unpack _). vm_compute. exact I. Qed.
Example small_page : (λ pg, (n_id <$> p_nodes pg, p_edges pg, p_has_more pg)) <$> page_of id true small (Request 2 2 2 no_filters) = Some (["node_2"; "node_3"; "node_1"], [DEdge "node_2" "node_3" "calls"], true).
Proof. vm_compute. reflexivity. Qed.
Example small_order : n_id <$> tree_order false small = ["node_0"; "node_1"; "node_2"; "node_3"].
Proof. vm_compute. reflexivity. Qed.
Example small_first : ∃ pg, page_of id true small (Request 1 1 (-1) no_filters) = Some pg ∧ p_has_more pg = true ∧ ∀ n, n ∈ p_nodes pg → n_parent n = "".
Proof. eexists. split; [vm_compute; reflexivity|]. split; [done|]. cbn [p_nodes]. by intros n ->%elem_of_list_singleton. Qed.
Example plain_asked : plain_request (Request 1 100 3 (Filters ["internal/spec"] ["Serve"; "main"] [] [] [] [] "exported")).
Proof. split; [cbn; lia|]. repeat split; repeat (first [apply Forall_nil_2|apply Forall_cons_2]); done. Qed.
Example quiet_run : ∃ s p, rtc (quiet "call-graph" (page_of id true)) (Server small ∅ []) s ∧ serve "call-graph" (page_of id true) s (Some (Request 1 2 (-1) no_filters, p)) s.
Proof.
  set (r := Request 1 2 (-1) no_filters). destruct (page_of id true small r) as [p|] eqn:Ep; [|by vm_compute in Ep]. exists (Server small (<[cache_key "call-graph" r := p]> ∅) []), p. split.
  - eapply rtc_l; [eexists; split; [apply (serve_make _ _ _ r p); [apply lookup_empty|exact Ep]|]|]; cbn [s_data s_making s_cache app].
    { split; [done|]. intros r' p' Hin%elem_of_list_singleton. injection Hin as -> ->. split; [cbn; lia|]. repeat split; by apply Forall_nil_2. }
    eapply rtc_l; [eexists; split; [apply (serve_store _ _ _ _ [] [] r p)|]|done]. split; [done|]. by intros r' p' ?%elem_of_nil.
  - apply serve_hit. apply lookup_insert.
Qed.
