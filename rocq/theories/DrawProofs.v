(** * Drawing the call graph: proofs. *)
From Coq Require Import Ascii.
From stdpp Require Import base numbers list strings gmap.
From Verif Require Import StrLib DecLib PairProofs DiagModel DiagSpec DrawModel DrawSpec.

(** ** Names of nodes and pairs *)
Lemma node_name_inj a b : node_name a = node_name b → a = b.
Proof. unfold node_name. intros H%sapp_inj_l. by apply itoa_nat_inj. Qed.
Lemma node_name_dash k : contains_byte "-" (node_name k) = false.
Proof. unfold node_name. rewrite contains_app, contains_itoa_nat by done. done. Qed.
Lemma node_name_nonempty k : node_name k ≠ "".
Proof. done. Qed.
Lemma pair_key_inj a b c d : node_name a +:+ "->" +:+ node_name b = node_name c +:+ "->" +:+ node_name d → node_name a = node_name c ∧ node_name b = node_name d.
Proof.
  intros H. apply (first_split_inj "-") in H as [H1 H2]; [|apply node_name_dash..]. split; [done|].
  apply (sapp_inj_l ">") in H2. done.
Qed.

(** ** Literals *)
Lemma is_literal_spec s : is_literal s = true ↔ ∃ rest, s = "FuncLit:" +:+ rest.
Proof. apply has_prefix_spec. Qed.
Lemma named_node_some name pkg ns i b n : named_node name pkg ns = Some (i, (b, n)) → (b, n) ∈ ns ∧ n_fname n = name ∧ n_pkg n = pkg.
Proof. intros (H & Hn & _)%list_find_Some. split; [by eapply elem_of_list_lookup_2|done]. Qed.
Lemma named_node_none name pkg ns : named_node name pkg ns = None ↔ ∀ b n, (b, n) ∈ ns → ¬ (n_fname n = name ∧ n_pkg n = pkg).
Proof.
  unfold named_node. rewrite list_find_None, Forall_forall. split.
  - intros H b n Hn. apply (H _ Hn).
  - intros H [b n] Hn. apply (H _ _ Hn).
Qed.

(** ** One function *)
Definition draw_fun (graph : list gedge) (c : fcall) (parent : option fcall) (mk : string → string → dnode) (w : drawing) : drawing :=
  if bool_decide (c_base c ∈ w_visited w) then w else
    let id := node_name (S (w_count w)) in
    let '(p, w) := literal_parent graph (c_name c) parent (new_function (c_base c) w) in add_node (c_base c) (mk id p) w.
Definition node_caller (e : gedge) (id p : string) : dnode :=
  let c := g_caller e in DNode id (fun_label c) (c_name c) p (c_pkg c) (caller_position c) [] (c_recv c) (c_sig c) (match g_generics e with [] => None | gs => Some gs end) (c_scope c) 0 false.
Definition node_callee (graph : list gedge) (e : gedge) (id p : string) : dnode :=
  let c := g_callee e in let paths := call_paths graph (c_base c) in
  DNode id (fun_label c) (c_name c) p (c_pkg c) "" paths (c_recv c) (c_sig c) (if bool_decide (paths = []) then None else Some (g_generics e)) (c_scope c) 0 false.
Lemma draw_caller_fun graph e w : draw_caller graph e w = draw_fun graph (g_caller e) (g_parent e) (node_caller e) w.
Proof. done. Qed.
Lemma draw_callee_fun graph e w : draw_callee graph e w = draw_fun graph (g_callee e) (g_parent e) (node_callee graph e) w.
Proof. done. Qed.
(** The node of an enclosing function. *)
Definition node_parent (graph : list gedge) (p : fcall) (id : string) : dnode :=
  let paths := call_paths graph (c_base p) in
  DNode id (if bool_decide (c_recv p = "") then c_name p else c_recv p +:+ "." +:+ c_name p) (c_name p) "" (c_pkg p) (if bool_decide (c_name p = "main") then "root function" else "")
    paths (c_recv p) (c_sig p) (if bool_decide (paths = []) then None else Some []) (c_scope p) 0 true.

(** What drawing a function can do. *)
Inductive fun_drawn (graph : list gedge) (c : fcall) (parent : option fcall) (mk : string → string → dnode) (w : drawing) : drawing → Prop :=
  | fd_old : c_base c ∈ w_visited w → fun_drawn graph c parent mk w w
  | fd_plain : c_base c ∉ w_visited w → (parent = None ∨ is_literal (c_name c) = false) →
      fun_drawn graph c parent mk w
        (Drawing (w_nodes w ++ [(c_base c, mk (node_name (S (w_count w))) "")]) (w_edges w) ({[ c_base c ]} ∪ w_visited w) (<[c_base c := node_name (S (w_count w))]> (w_ids w)) (w_pairs w) (S (w_count w)))
  | fd_inside p i b n : c_base c ∉ w_visited w → parent = Some p → is_literal (c_name c) = true → named_node (c_name p) (c_pkg p) (w_nodes w) = Some (i, (b, n)) →
      fun_drawn graph c parent mk w
        (Drawing (w_nodes w ++ [(c_base c, mk (node_name (S (w_count w))) (n_id n))]) (w_edges w) ({[ c_base c ]} ∪ w_visited w) (<[c_base c := node_name (S (w_count w))]> (w_ids w)) (w_pairs w) (S (w_count w)))
  | fd_both p : c_base c ∉ w_visited w → parent = Some p → is_literal (c_name c) = true → named_node (c_name p) (c_pkg p) (w_nodes w) = None →
      fun_drawn graph c parent mk w
        (Drawing (w_nodes w ++ [(c_base p, node_parent graph p (node_name (S (S (w_count w))))); (c_base c, mk (node_name (S (w_count w))) (node_name (S (S (w_count w)))))]) (w_edges w)
           ({[ c_base p ]} ∪ ({[ c_base c ]} ∪ w_visited w)) (<[c_base c := node_name (S (w_count w))]> (w_ids w)) (w_pairs w) (S (S (w_count w)))).
Lemma draw_fun_cases graph c parent mk w : fun_drawn graph c parent mk w (draw_fun graph c parent mk w).
Proof.
  unfold draw_fun. destruct (decide (c_base c ∈ w_visited w)) as [Hv|Hv].
  - rewrite bool_decide_eq_true_2 by done. by apply fd_old.
  - rewrite bool_decide_eq_false_2 by done. unfold literal_parent.
    destruct parent as [p|]; [|cbn; apply fd_plain; auto].
    destruct (is_literal (c_name c)) eqn:Hl; [|cbn; apply fd_plain; auto].
    cbn [new_function w_nodes]. destruct (named_node (c_name p) (c_pkg p) (w_nodes w)) as [[i [b n]]|] eqn:Hn.
    + apply (fd_inside graph c (Some p) mk w p i b n); done.
    + assert (ensure_parent graph p (new_function (c_base c) w) = make_parent graph p (new_function (c_base c) w)) as ->.
      { unfold ensure_parent. cbn [new_function w_nodes]. rewrite Hn. by destruct (bool_decide _). }
      unfold make_parent, add_node, new_function. cbn [w_nodes w_edges w_visited w_ids w_pairs w_count]. rewrite <- app_assoc. apply (fd_both graph c (Some p) mk w p); done.
Qed.

(** ** What holds all along *)
Definition occurs_by (seen : list fcall) (c : fcall) : Prop := c ∈ seen.
Record sound (graph : list gedge) (seen : list fcall) (w : drawing) : Prop := {
  so_ids : NoDup ((λ n : string * dnode, n_id n.2) <$> w_nodes w);
  so_count : ∀ x n, (x, n) ∈ w_nodes w → ∃ k, k ≤ w_count w ∧ n_id n = node_name k;
  so_visited : ∀ x, x ∈ w_visited w ↔ ∃ n, (x, n) ∈ w_nodes w;
  so_map : ∀ x id, w_ids w !! x = Some id ↔ ∃ n, (x, n) ∈ w_nodes w ∧ n_is_parent n = false ∧ n_id n = id;
  so_shows : ∀ x n, (x, n) ∈ w_nodes w → ∃ c, c_base c = x ∧ shows n c ∧ c ∈ seen ∧ if n_is_parent n then ∃ l, encloses graph c l else calls_or_called graph c;
  so_parent : ∀ x n, (x, n) ∈ w_nodes w → n_parent n ≠ "" →
    ∃ y q p l, (y, q) ∈ w_nodes w ∧ n_id q = n_parent n ∧ encloses graph p l ∧ c_base l = x ∧ shows n l ∧ n_fname q = c_name p ∧ n_pkg q = c_pkg p;
}.

Lemma shows_caller e id p : shows (node_caller e id p) (g_caller e).
Proof. by repeat split. Qed.
Lemma shows_callee graph e id p : shows (node_callee graph e id p) (g_callee e).
Proof. by repeat split. Qed.

Definition end_of (e : gedge) (c : fcall) : Prop := c = g_caller e ∨ c = g_callee e.
(** Calls seen while an edge is drawn. *)
Definition with_parent (e : gedge) : list fcall := match g_parent e with Some p => [p] | None => [] end.
Definition ends_seen (e : gedge) (c : fcall) : list fcall := c :: with_parent e.

Lemma sound_fun graph seen e c mk w :
  e ∈ graph → end_of e c → (∀ id p, n_id (mk id p) = id ∧ n_parent (mk id p) = p ∧ n_is_parent (mk id p) = false ∧ shows (mk id p) c) →
  sound graph seen w → sound graph (seen ++ ends_seen e c) (draw_fun graph c (g_parent e) mk w).
Proof.
  intros He Hc Hmk [Hids Hcount Hvis Hmap Hshow Hpar].
  assert (calls_or_called graph c) as Hcc by (exists e; split; [done|apply Hc]).
  assert (∀ id p, n_id (mk id p) = id) as Hmid by (intros; apply Hmk).
  assert (∀ id p, n_parent (mk id p) = p) as Hmpar by (intros; apply Hmk).
  assert (∀ id p, n_is_parent (mk id p) = false) as Hmis by (intros; apply Hmk).
  assert (∀ id p, shows (mk id p) c) as Hms by (intros; apply Hmk). clear Hmk.
  assert (∀ k, w_count w < k → node_name k ∉ ((λ n : string * dnode, n_id n.2) <$> w_nodes w)) as Hnew.
  { intros k Hk ([x n] & Heq & Hin)%elem_of_list_fmap. cbn in Heq. destruct (Hcount x n Hin) as (j & Hj & Hid).
    rewrite Hid in Heq. apply node_name_inj in Heq. lia. }
  destruct (draw_fun_cases graph c (g_parent e) mk w) as [Hv | Hv Hplain | p i b n Hv Hp Hl Hn | p Hv Hp Hl Hn].
  - split; try done. intros x n Hin. destruct (Hshow x n Hin) as (c' & ? & ? & ? & ?). exists c'. rewrite elem_of_app. auto.
  - split; cbn [w_nodes w_visited w_ids w_count].
    + rewrite fmap_app. apply NoDup_app. split; [done|]. cbn. split; [|apply NoDup_singleton].
      intros id Hin ->%elem_of_list_singleton. rewrite Hmid in Hin. apply (Hnew (S (w_count w))); [lia|done].
    + intros x n [Hin|[= -> ->]%elem_of_list_singleton]%elem_of_app.
      * destruct (Hcount x n Hin) as (k & ? & ?). exists k. split; [lia|done].
      * exists (S (w_count w)). by rewrite Hmid.
    + intros x. rewrite elem_of_union, elem_of_singleton. split.
      * intros [-> | Hx]; [eexists; apply elem_of_app; right; by apply elem_of_list_singleton|].
        apply Hvis in Hx as [n Hn]. exists n. apply elem_of_app. by left.
      * intros (n & [Hin|[= -> ->]%elem_of_list_singleton]%elem_of_app); [|by left]. right. apply Hvis. by exists n.
    + intros x id. destruct (decide (x = c_base c)) as [-> | Hne].
      * rewrite lookup_insert. split.
        -- intros [= <-]. eexists. split; [apply elem_of_app; right; by apply elem_of_list_singleton|]. by rewrite Hmis, Hmid.
        -- intros (n & [Hin|[= ->]%elem_of_list_singleton]%elem_of_app & _ & Hid); [exfalso; apply Hv, Hvis; by exists n|]. by rewrite <- Hid, Hmid.
      * rewrite lookup_insert_ne by done. rewrite Hmap. split.
        -- intros (n & Hin & ?). exists n. split; [apply elem_of_app; by left|done].
        -- intros (n & [Hin|[= -> ->]%elem_of_list_singleton]%elem_of_app & ?); [by exists n|done].
    + intros x n [Hin|[= -> ->]%elem_of_list_singleton]%elem_of_app.
      * destruct (Hshow x n Hin) as (c' & ? & ? & ? & ?). exists c'. rewrite elem_of_app. auto.
      * exists c. rewrite Hmis. split; [done|]. split; [done|]. split; [apply elem_of_app; right; apply elem_of_cons; by left|done].
    + intros x n [Hin|[= -> ->]%elem_of_list_singleton]%elem_of_app Hne.
      * destruct (Hpar x n Hin Hne) as (y & q & p & l & Hq & ?). exists y, q, p, l. split; [apply elem_of_app; by left|done].
      * by rewrite Hmpar in Hne.
  - apply named_node_some in Hn as (Hin0 & Hf0 & Hp0).
    split; cbn [w_nodes w_visited w_ids w_count].
    + rewrite fmap_app. apply NoDup_app. split; [done|]. cbn. split; [|apply NoDup_singleton].
      intros id Hin ->%elem_of_list_singleton. rewrite Hmid in Hin. apply (Hnew (S (w_count w))); [lia|done].
    + intros x m [Hin|[= -> ->]%elem_of_list_singleton]%elem_of_app.
      * destruct (Hcount x m Hin) as (k & ? & ?). exists k. split; [lia|done].
      * exists (S (w_count w)). by rewrite Hmid.
    + intros x. rewrite elem_of_union, elem_of_singleton. split.
      * intros [-> | Hx]; [eexists; apply elem_of_app; right; by apply elem_of_list_singleton|].
        apply Hvis in Hx as [m Hm]. exists m. apply elem_of_app. by left.
      * intros (m & [Hin|[= -> ->]%elem_of_list_singleton]%elem_of_app); [|by left]. right. apply Hvis. by exists m.
    + intros x id. destruct (decide (x = c_base c)) as [-> | Hne].
      * rewrite lookup_insert. split.
        -- intros [= <-]. eexists. split; [apply elem_of_app; right; by apply elem_of_list_singleton|]. by rewrite Hmis, Hmid.
        -- intros (m & [Hin|[= ->]%elem_of_list_singleton]%elem_of_app & _ & Hid); [exfalso; apply Hv, Hvis; by exists m|]. by rewrite <- Hid, Hmid.
      * rewrite lookup_insert_ne by done. rewrite Hmap. split.
        -- intros (m & Hin & ?). exists m. split; [apply elem_of_app; by left|done].
        -- intros (m & [Hin|[= -> ->]%elem_of_list_singleton]%elem_of_app & ?); [by exists m|done].
    + intros x m [Hin|[= -> ->]%elem_of_list_singleton]%elem_of_app.
      * destruct (Hshow x m Hin) as (c' & ? & ? & ? & ?). exists c'. rewrite elem_of_app. auto.
      * exists c. rewrite Hmis. split; [done|]. split; [done|]. split; [apply elem_of_app; right; apply elem_of_cons; by left|done].
    + intros x m [Hin|[= -> ->]%elem_of_list_singleton]%elem_of_app Hne.
      * destruct (Hpar x m Hin Hne) as (y & q & p' & l & Hq & ?). exists y, q, p', l. split; [apply elem_of_app; by left|done].
      * exists b, n, p, c. rewrite Hmpar. split; [apply elem_of_app; by left|]. split; [done|]. split; [|done].
        exists e. split; [done|]. split; [done|]. split; [done|]. by apply is_literal_spec.
  - assert (encloses graph p c) as Henc by (exists e; split; [done|]; split; [done|]; split; [done|]; by apply is_literal_spec).
    split; cbn [w_nodes w_visited w_ids w_count].
    + rewrite fmap_app. apply NoDup_app. split; [done|]. cbn. rewrite Hmid. split.
      * intros id Hin [-> | ->%elem_of_list_singleton]%elem_of_cons.
        -- apply (Hnew (S (S (w_count w)))); [lia|done].
        -- apply (Hnew (S (w_count w))); [lia|done].
      * apply NoDup_cons. split; [|apply NoDup_singleton]. intros H%elem_of_list_singleton. apply node_name_inj in H. lia.
    + intros x m [Hin|[[= -> ->]|[= -> ->]%elem_of_list_singleton]%elem_of_cons]%elem_of_app.
      * destruct (Hcount x m Hin) as (k & ? & ?). exists k. split; [lia|done].
      * by exists (S (S (w_count w))).
      * exists (S (w_count w)). rewrite Hmid. split; [lia|done].
    + intros x. rewrite !elem_of_union, !elem_of_singleton. split.
      * intros [-> | [-> | Hx]].
        -- eexists; apply elem_of_app; right; apply elem_of_cons; by left.
        -- eexists; apply elem_of_app; right; apply elem_of_cons; right; by apply elem_of_list_singleton.
        -- apply Hvis in Hx as [m Hm]. exists m. apply elem_of_app. by left.
      * intros (m & [Hin|[[= -> ->]|[= -> ->]%elem_of_list_singleton]%elem_of_cons]%elem_of_app); [|by left|right; by left].
        right. right. apply Hvis. by exists m.
    + intros x id. destruct (decide (x = c_base c)) as [-> | Hne].
      * rewrite lookup_insert. split.
        -- intros [= <-]. eexists. split; [apply elem_of_app; right; apply elem_of_cons; right; by apply elem_of_list_singleton|]. by rewrite Hmis, Hmid.
        -- intros (m & [Hin|[[= _ ->]|[= ->]%elem_of_list_singleton]%elem_of_cons]%elem_of_app & His & Hid); [exfalso; apply Hv, Hvis; by exists m|done|]. by rewrite <- Hid, Hmid.
      * rewrite lookup_insert_ne by done. rewrite Hmap. split.
        -- intros (m & Hin & ?). exists m. split; [apply elem_of_app; by left|done].
        -- intros (m & [Hin|[[= -> ->]|[= -> ->]%elem_of_list_singleton]%elem_of_cons]%elem_of_app & His & ?); [by exists m|done|done].
    + intros x m [Hin|[[= -> ->]|[= -> ->]%elem_of_list_singleton]%elem_of_cons]%elem_of_app.
      * destruct (Hshow x m Hin) as (c' & ? & ? & ? & ?). exists c'. rewrite elem_of_app. auto.
      * exists p. split; [done|]. split; [by repeat split|]. split; [|by exists c].
        apply elem_of_app; right. unfold ends_seen, with_parent. rewrite Hp. apply elem_of_cons. right. by apply elem_of_list_singleton.
      * exists c. rewrite Hmis. split; [done|]. split; [done|]. split; [apply elem_of_app; right; apply elem_of_cons; by left|done].
    + intros x m [Hin|[[= -> ->]|[= -> ->]%elem_of_list_singleton]%elem_of_cons]%elem_of_app Hne.
      * destruct (Hpar x m Hin Hne) as (y & q & p' & l & Hq & ?). exists y, q, p', l. split; [apply elem_of_app; by left|done].
      * done.
      * exists (c_base p), (node_parent graph p (node_name (S (S (w_count w))))), p, c. rewrite Hmpar.
        split; [apply elem_of_app; right; apply elem_of_cons; by left|]. split; [done|]. split; [done|]. done.
Qed.

Lemma draw_fun_grows graph c parent mk w : ∃ more, w_nodes (draw_fun graph c parent mk w) = w_nodes w ++ more.
Proof. destruct (draw_fun_cases graph c parent mk w); cbn; eauto. exists []. by rewrite app_nil_r. Qed.
Lemma draw_fun_visits graph c parent mk w : c_base c ∈ w_visited (draw_fun graph c parent mk w) ∧ w_visited w ⊆ w_visited (draw_fun graph c parent mk w).
Proof. destruct (draw_fun_cases graph c parent mk w); cbn; split; try done; set_solver. Qed.
Lemma draw_fun_same graph c parent mk w : w_edges (draw_fun graph c parent mk w) = w_edges w ∧ w_pairs (draw_fun graph c parent mk w) = w_pairs w.
Proof. by destruct (draw_fun_cases graph c parent mk w). Qed.
Lemma draw_arrow_same e w : w_nodes (draw_arrow e w) = w_nodes w ∧ w_visited (draw_arrow e w) = w_visited w ∧ w_ids (draw_arrow e w) = w_ids w ∧ w_count (draw_arrow e w) = w_count w.
Proof. unfold draw_arrow. destruct (w_ids w !! _); [|done]. destruct (w_ids w !! _); [|done]. by destruct (bool_decide _). Qed.
Lemma draw_edge_nodes graph e w :
  w_nodes (draw_edge graph w e) = w_nodes (draw_fun graph (g_callee e) (g_parent e) (node_callee graph e) (draw_fun graph (g_caller e) (g_parent e) (node_caller e) w)).
Proof. unfold draw_edge. destruct (draw_arrow_same e (draw_callee graph e (draw_caller graph e w))) as (-> & _). done. Qed.
Lemma draw_fun_ids graph c parent mk w x id : w_ids w !! x = Some id → x ∈ w_visited w → w_ids (draw_fun graph c parent mk w) !! x = Some id.
Proof.
  intros H Hx. destruct (draw_fun_cases graph c parent mk w) as [Hv|Hv ?|p i b n Hv ???|p Hv ???]; cbn; [done|..];
    (rewrite lookup_insert_ne; [done|]; intros <-; by apply Hv).
Qed.

Lemma sound_arrow graph seen e w : sound graph seen w → sound graph seen (draw_arrow e w).
Proof. destruct (draw_arrow_same e w) as (Hn & Hv & Hi & Hc). intros [H1 H2 H3 H4 H5 H6]. split; rewrite ?Hn, ?Hv, ?Hi, ?Hc; done. Qed.
Definition seen_in (e : gedge) : list fcall := ends_seen e (g_caller e) ++ ends_seen e (g_callee e).
Lemma sound_edge graph seen e w : e ∈ graph → sound graph seen w → sound graph (seen ++ seen_in e) (draw_edge graph w e).
Proof.
  intros He Hw. unfold draw_edge. apply sound_arrow. rewrite draw_callee_fun, draw_caller_fun. unfold seen_in. rewrite app_assoc.
  apply sound_fun; [done|by right|by repeat split|]. apply sound_fun; [done|by left|by repeat split|done].
Qed.
Lemma sound_nothing graph : sound graph [] nothing_drawn.
Proof. split; cbn; try (intros; exfalso; set_solver); [constructor| |]; intros; split; [set_solver| |set_solver|]; intros (? & ?%elem_of_nil & ?) || intros (? & ?%elem_of_nil); done. Qed.
Lemma sound_prefix graph pre post : graph = pre ++ post → sound graph (pre ≫= seen_in) (foldl (draw_edge graph) nothing_drawn pre).
Proof.
  revert post. induction pre as [|e pre IH] using rev_ind; intros post Hg; [apply sound_nothing|].
  rewrite foldl_snoc, bind_app. cbn. rewrite app_nil_r. apply sound_edge; [rewrite Hg; apply elem_of_app; left; apply elem_of_app; right; by apply elem_of_list_singleton|].
  apply (IH (e :: post)). by rewrite Hg, <- app_assoc.
Qed.
Lemma sound_draw graph : sound graph (graph ≫= seen_in) (draw graph).
Proof. apply (sound_prefix graph graph []). by rewrite app_nil_r. Qed.

(** ** Edges *)
Record exactly (done_ : list gedge) (w : drawing) : Prop := {
  ex_pairs : ∀ a b, node_name a +:+ "->" +:+ node_name b ∈ w_pairs w ↔ DEdge (node_name a) (node_name b) "calls" ∈ w_edges w;
  ex_from : ∀ d, d ∈ w_edges w → ∃ e a b, e ∈ done_ ∧ w_ids w !! c_base (g_caller e) = Some (node_name a) ∧ w_ids w !! c_base (g_callee e) = Some (node_name b) ∧ d = DEdge (node_name a) (node_name b) "calls";
  ex_nodup : NoDup (w_edges w);
  ex_all : ∀ e, e ∈ done_ → c_base (g_caller e) ∈ w_visited w ∧ c_base (g_callee e) ∈ w_visited w ∧
    ∀ a b, w_ids w !! c_base (g_caller e) = Some a → w_ids w !! c_base (g_callee e) = Some b → DEdge a b "calls" ∈ w_edges w;
}.
Lemma sound_name graph seen w x id : sound graph seen w → w_ids w !! x = Some id → ∃ k, id = node_name k.
Proof. intros Hs Hx. apply (so_map _ _ _ Hs) in Hx as (n & Hin & _ & <-). destruct (so_count _ _ _ Hs x n Hin) as (k & _ & ?). eauto. Qed.
Lemma fun_ids_back graph seen e c mk w x id : sound graph seen w → x ∈ w_visited w → w_ids (draw_fun graph c (g_parent e) mk w) !! x = Some id → w_ids w !! x = Some id.
Proof.
  intros Hs Hx. destruct (draw_fun_cases graph c (g_parent e) mk w) as [Hv|Hv ?|p i b n Hv ???|p Hv ???]; cbn; [done|..];
    (rewrite lookup_insert_ne; [done|]; intros <-; by apply Hv).
Qed.
Lemma exact_fun graph seen done_ e c mk w : sound graph seen w → exactly done_ w → exactly done_ (draw_fun graph c (g_parent e) mk w).
Proof.
  intros Hs [H1 H2 H3 H4]. destruct (draw_fun_same graph c (g_parent e) mk w) as [He Hp]. split; rewrite ?He, ?Hp.
  - done.
  - intros d Hd. destruct (H2 d Hd) as (e' & a & b & He' & Ha & Hb & ->). destruct (H4 e' He') as (Hv1 & Hv2 & _).
    exists e', a, b. split; [done|]. by split; [|split]; [apply draw_fun_ids..|].
  - done.
  - intros e' He'. destruct (H4 e' He') as (Hv1 & Hv2 & Hall). destruct (draw_fun_visits graph c (g_parent e) mk w) as [_ Hsub].
    split; [by apply Hsub|]. split; [by apply Hsub|]. intros a b Ha Hb. apply Hall; by eapply fun_ids_back.
Qed.
Lemma exact_arrow graph seen done_ e w : sound graph seen w → exactly done_ w → c_base (g_caller e) ∈ w_visited w → c_base (g_callee e) ∈ w_visited w → exactly (done_ ++ [e]) (draw_arrow e w).
Proof.
  intros Hs [H1 H2 H3 H4] Hv1 Hv2. unfold draw_arrow.
  assert (∀ w', w_visited w' = w_visited w → w_ids w' = w_ids w → (∀ d, d ∈ w_edges w → d ∈ w_edges w') →
    (∀ a b, w_ids w !! c_base (g_caller e) = Some a → w_ids w !! c_base (g_callee e) = Some b → DEdge a b "calls" ∈ w_edges w') →
    ∀ e', e' ∈ done_ ++ [e] → c_base (g_caller e') ∈ w_visited w' ∧ c_base (g_callee e') ∈ w_visited w' ∧
    ∀ a b, w_ids w' !! c_base (g_caller e') = Some a → w_ids w' !! c_base (g_callee e') = Some b → DEdge a b "calls" ∈ w_edges w') as Hall.
  { intros w' Ev Ei Hsub Hnew e' [He' | ->%elem_of_list_singleton]%elem_of_app; rewrite Ev, Ei.
    - destruct (H4 e' He') as (? & ? & Hd). split; [done|]. split; [done|]. intros a b Ha Hb. by apply Hsub, Hd.
    - split; [done|]. split; [done|]. done. }
  assert (∀ d, d ∈ w_edges w → ∃ e0 a b, e0 ∈ done_ ++ [e] ∧ w_ids w !! c_base (g_caller e0) = Some (node_name a) ∧ w_ids w !! c_base (g_callee e0) = Some (node_name b) ∧ d = DEdge (node_name a) (node_name b) "calls") as Hfrom.
  { intros d Hd. destruct (H2 d Hd) as (e' & a & b & He' & ?). exists e', a, b. split; [apply elem_of_app; by left|done]. }
  destruct (w_ids w !! c_base (g_caller e)) as [a|] eqn:Ha.
  2:{ split; try done. apply Hall; done. }
  destruct (w_ids w !! c_base (g_callee e)) as [b|] eqn:Hb.
  2:{ split; try done. apply Hall; done. }
  destruct (sound_name _ _ _ _ _ Hs Ha) as [ka ->]. destruct (sound_name _ _ _ _ _ Hs Hb) as [kb ->].
  destruct (decide (node_name ka +:+ "->" +:+ node_name kb ∈ w_pairs w)) as [Hin|Hin].
  - rewrite bool_decide_eq_true_2 by done. split; try done. apply Hall; try done. intros a b [= <-] [= <-]. by apply H1.
  - rewrite bool_decide_eq_false_2 by done. split; cbn [w_pairs w_edges w_ids].
    + intros a b. rewrite elem_of_union, elem_of_singleton, elem_of_app, elem_of_list_singleton, H1. split.
      * intros [Heq|?]; [|by left]. right. apply pair_key_inj in Heq as [-> ->]. done.
      * intros [?|Heq]; [by right|]. left. f_equal; [apply (f_equal e_src) in Heq|f_equal; apply (f_equal e_dst) in Heq]; exact Heq.
    + intros d [Hd | ->%elem_of_list_singleton]%elem_of_app; [by apply Hfrom|]. exists e, ka, kb. split; [apply elem_of_app; right; by apply elem_of_list_singleton|done].
    + apply NoDup_app. split; [done|]. split; [|apply NoDup_singleton]. intros d Hd ->%elem_of_list_singleton. by apply Hin, H1.
    + apply Hall; try done.
      * intros d Hd. apply elem_of_app. by left.
      * intros a b [= <-] [= <-]. apply elem_of_app. right. by apply elem_of_list_singleton.
Qed.
Lemma exact_prefix graph pre post : graph = pre ++ post → exactly pre (foldl (draw_edge graph) nothing_drawn pre).
Proof.
  revert post. induction pre as [|e pre IH] using rev_ind; intros post Hg.
  { split; cbn; [intros; split; set_solver|intros ? ?%elem_of_nil; done|constructor|intros ? ?%elem_of_nil; done]. }
  assert (graph = pre ++ e :: post) as Hg' by (by rewrite Hg, <- app_assoc).
  rewrite foldl_snoc. specialize (IH _ Hg'). pose proof (sound_prefix _ _ _ Hg') as Hs.
  assert (e ∈ graph) as He by (rewrite Hg'; apply elem_of_app; right; apply elem_of_cons; by left).
  unfold draw_edge. rewrite draw_callee_fun, draw_caller_fun.
  assert (Hs1 : sound graph ((pre ≫= seen_in) ++ ends_seen e (g_caller e)) (draw_fun graph (g_caller e) (g_parent e) (node_caller e) (foldl (draw_edge graph) nothing_drawn pre))).
  { apply sound_fun; [done|by left|by repeat split|done]. }
  eapply exact_arrow.
  - eapply (sound_fun graph); [exact He|by right|by repeat split|exact Hs1].
  - eapply exact_fun; [exact Hs1|]. eapply exact_fun; [exact Hs|done].
  - apply (proj2 (draw_fun_visits _ _ _ _ _)), (proj1 (draw_fun_visits _ _ _ _ _)).
  - apply (proj1 (draw_fun_visits _ _ _ _ _)).
Qed.
Lemma exact_draw graph : exactly graph (draw graph).
Proof. apply (exact_prefix graph graph []). by rewrite app_nil_r. Qed.

(** ** One node for each function *)
Lemma seen_occurs graph pre post c : graph = pre ++ post → c ∈ pre ≫= seen_in →
  ∃ e, e ∈ pre ∧ (c = g_caller e ∨ c = g_callee e ∨ g_parent e = Some c).
Proof.
  intros _ (e & Hc & He)%elem_of_list_bind. exists e. split; [done|]. unfold seen_in, ends_seen, with_parent in Hc.
  destruct (g_parent e); set_solver.
Qed.
Lemma one_fun graph seen e c mk w :
  named_apart graph → none_in_itself graph → e ∈ graph → end_of e c → sound graph seen w → NoDup ((w_nodes w).*1) → NoDup ((w_nodes (draw_fun graph c (g_parent e) mk w)).*1).
Proof.
  intros Hap Hself He Hc Hs Hnd.
  assert (∀ x, x ∉ w_visited w → x ∉ (w_nodes w).*1) as Hout.
  { intros x Hx ([y n] & -> & Hin)%elem_of_list_fmap. apply Hx, (so_visited _ _ _ Hs). by exists n. }
  destruct (draw_fun_cases graph c (g_parent e) mk w) as [Hv | Hv Hplain | p i b n Hv Hp Hl Hn | p Hv Hp Hl Hn]; cbn [w_nodes]; [done|..].
  - rewrite fmap_app. apply NoDup_app. split; [done|]. split; [|apply NoDup_singleton]. intros x Hx ->%elem_of_list_singleton. by apply (Hout (c_base c)).
  - rewrite fmap_app. apply NoDup_app. split; [done|]. split; [|apply NoDup_singleton]. intros x Hx ->%elem_of_list_singleton. by apply (Hout (c_base c)).
  - assert (encloses graph p c) as Henc by (exists e; split; [done|]; split; [done|]; split; [done|]; by apply is_literal_spec).
    rewrite fmap_app. apply NoDup_app. split; [done|]. cbn. split.
    + intros x Hx [-> | ->%elem_of_list_singleton]%elem_of_cons; [|by apply (Hout (c_base c))].
      apply elem_of_list_fmap in Hx as ([y n] & Hy & Hin). cbn in Hy. destruct (so_shows _ _ _ Hs y n Hin) as (c' & Hb & Hsh & _ & Hwhy).
      assert (occurs_in graph c') as Hocc by (destruct (n_is_parent n); [by right|by left]).
      destruct (Hap c' p Hocc (or_intror (ex_intro _ c Henc)) ltac:(congruence)) as [Hn1 Hn2].
      destruct Hsh as (Hf & Hk & _). apply (proj1 (named_node_none _ _ _) Hn y n Hin). split; congruence.
    + apply NoDup_cons. split; [|apply NoDup_singleton]. intros H%elem_of_list_singleton. by apply (Hself p c).
Qed.
Lemma one_prefix graph pre post : named_apart graph → none_in_itself graph → graph = pre ++ post → NoDup ((w_nodes (foldl (draw_edge graph) nothing_drawn pre)).*1).
Proof.
  intros Hap Hself. revert post. induction pre as [|e pre IH] using rev_ind; intros post Hg; [constructor|].
  assert (graph = pre ++ e :: post) as Hg' by (by rewrite Hg, <- app_assoc).
  assert (e ∈ graph) as He by (rewrite Hg'; apply elem_of_app; right; apply elem_of_cons; by left).
  rewrite foldl_snoc. specialize (IH _ Hg'). pose proof (sound_prefix _ _ _ Hg') as Hs. rewrite draw_edge_nodes. eapply one_fun; [done|done|done|by right| |].
  - apply sound_fun; [done|by left|by repeat split|done].
  - eapply one_fun; [done|done|done|by left|done|done].
Qed.

(** ** Nodes stay *)
Lemma draw_edge_grows graph e w : ∃ more, w_nodes (draw_edge graph w e) = w_nodes w ++ more.
Proof.
  unfold draw_edge. destruct (draw_arrow_same e (draw_callee graph e (draw_caller graph e w))) as (-> & _). rewrite draw_callee_fun, draw_caller_fun.
  destruct (draw_fun_grows graph (g_callee e) (g_parent e) (node_callee graph e) (draw_fun graph (g_caller e) (g_parent e) (node_caller e) w)) as [m1 ->].
  destruct (draw_fun_grows graph (g_caller e) (g_parent e) (node_caller e) w) as [m2 ->]. exists (m2 ++ m1). by rewrite app_assoc.
Qed.
Lemma draw_grows graph post w : ∃ more, w_nodes (foldl (draw_edge graph) w post) = w_nodes w ++ more.
Proof.
  revert w. induction post as [|e post IH]; intros w; cbn; [exists []; by rewrite app_nil_r|].
  destruct (IH (draw_edge graph w e)) as [m ->]. destruct (draw_edge_grows graph e w) as [m' ->]. exists (m' ++ m). by rewrite app_assoc.
Qed.

(** ** The parent of a literal *)
Lemma fun_parent graph seen c p mk w :
  (∀ id q, n_parent (mk id q) = q) → is_literal (c_name c) = true → c_base c ∉ w_visited w → sound graph seen w →
  ∃ n y q, (c_base c, n) ∈ w_nodes (draw_fun graph c (Some p) mk w) ∧ (y, q) ∈ w_nodes (draw_fun graph c (Some p) mk w) ∧
    n_parent n = n_id q ∧ n_fname q = c_name p ∧ n_pkg q = c_pkg p.
Proof.
  intros Hmk Hl Hv Hs. destruct (draw_fun_cases graph c (Some p) mk w) as [? | _ [?|?] | p' i b n _ [= <-] _ Hn | p' _ [= <-] _ Hn]; cbn [w_nodes]; [done|done|congruence|..].
  - apply named_node_some in Hn as (Hin & Hf & Hk). eexists _, b, n. rewrite !elem_of_app, elem_of_list_singleton. split; [by right|]. split; [by left|]. by rewrite Hmk.
  - eexists _, (c_base p), _. rewrite !elem_of_app, !elem_of_cons. split; [right; right; by left|]. split; [right; by left|]. by rewrite Hmk.
Qed.

(** ** No node is marked when the enclosing functions come first *)
Definition comes_first (graph : list gedge) : Prop :=
  ∀ pre e post p c, graph = pre ++ e :: post → g_parent e = Some p → end_of e c → is_literal (c_name c) = true →
    ∃ d, (calls_or_called pre d ∨ c ≠ g_caller e ∧ d = g_caller e) ∧ c_name d = c_name p ∧ c_pkg d = c_pkg p.
Lemma unmarked_fun graph seen e c mk w :
  (∀ id q, n_is_parent (mk id q) = false) → sound graph seen w →
  (∀ p, g_parent e = Some p → is_literal (c_name c) = true → ∃ y q, (y, q) ∈ w_nodes w ∧ n_fname q = c_name p ∧ n_pkg q = c_pkg p) →
  (∀ x n, (x, n) ∈ w_nodes w → n_is_parent n = false) → ∀ x n, (x, n) ∈ w_nodes (draw_fun graph c (g_parent e) mk w) → n_is_parent n = false.
Proof.
  intros Hmk Hs Hfirst Hw x n. destruct (draw_fun_cases graph c (g_parent e) mk w) as [? | Hv Hplain | p i b m Hv Hp Hl Hn | p Hv Hp Hl Hn]; cbn [w_nodes].
  - apply Hw.
  - intros [Hin|[= -> ->]%elem_of_list_singleton]%elem_of_app; [by eapply Hw|apply Hmk].
  - intros [Hin|[= -> ->]%elem_of_list_singleton]%elem_of_app; [by eapply Hw|apply Hmk].
  - destruct (Hfirst p Hp Hl) as (y & q & Hin & Hf & Hk). exfalso. apply (proj1 (named_node_none _ _ _) Hn y q Hin). done.
Qed.
Lemma visited_named graph seen w d : named_apart graph → sound graph seen w → calls_or_called graph d → c_base d ∈ w_visited w →
  ∃ y q, (y, q) ∈ w_nodes w ∧ n_fname q = c_name d ∧ n_pkg q = c_pkg d.
Proof.
  intros Hap Hs Hd Hv. apply (so_visited _ _ _ Hs) in Hv as [q Hq]. destruct (so_shows _ _ _ Hs _ _ Hq) as (c & Hb & Hsh & _ & Hwhy).
  assert (occurs_in graph c) as Hocc by (destruct (n_is_parent q); [by right|by left]).
  destruct (Hap c d Hocc (or_introl Hd) Hb) as [E1 E2]. destruct Hsh as (F1 & F2 & _). exists (c_base d), q. split; [done|]. split; congruence.
Qed.
Lemma unmarked_prefix graph pre post : named_apart graph → comes_first graph → graph = pre ++ post →
  ∀ x n, (x, n) ∈ w_nodes (foldl (draw_edge graph) nothing_drawn pre) → n_is_parent n = false.
Proof.
  intros Hap Hfirst. revert post. induction pre as [|e pre IH] using rev_ind; intros post Hg; [intros ?? []%elem_of_nil|].
  assert (graph = pre ++ e :: post) as Hg' by (by rewrite Hg, <- app_assoc).
  assert (e ∈ graph) as He by (rewrite Hg'; apply elem_of_app; right; apply elem_of_cons; by left).
  rewrite foldl_snoc. specialize (IH _ Hg'). pose proof (sound_prefix _ _ _ Hg') as Hs. pose proof (exact_prefix _ _ _ Hg') as Hx. rewrite draw_edge_nodes.
  set (w := foldl (draw_edge graph) nothing_drawn pre) in *.
  assert (∀ d, calls_or_called pre d → ∃ y q, (y, q) ∈ w_nodes w ∧ n_fname q = c_name d ∧ n_pkg q = c_pkg d) as Hbefore.
  { intros d (e' & He' & Hd). apply (visited_named graph (pre ≫= seen_in)); [done|done| |].
    - exists e'. split; [|done]. rewrite Hg'. apply elem_of_app. by left.
    - destruct (ex_all _ _ Hx e' He') as (? & ? & _). by destruct Hd as [-> | ->]. }
  assert (Hs1 : sound graph ((pre ≫= seen_in) ++ ends_seen e (g_caller e)) (draw_fun graph (g_caller e) (g_parent e) (node_caller e) w)).
  { apply sound_fun; [done|by left|by repeat split|done]. }
  eapply unmarked_fun; [done|exact Hs1| |].
  - intros p Hp Hl. destruct (Hfirst pre e post p (g_callee e) Hg' Hp (or_intror eq_refl) Hl) as (d & Hd & Hn1 & Hn2). rewrite <- Hn1, <- Hn2.
    destruct Hd as [Hd|[_ ->]].
    + destruct (Hbefore d Hd) as (y & q & Hin & ?). exists y, q. split; [|done].
      destruct (draw_fun_grows graph (g_caller e) (g_parent e) (node_caller e) w) as [m ->]. apply elem_of_app. by left.
    + eapply visited_named; [done|exact Hs1| |apply (proj1 (draw_fun_visits _ _ _ _ _))]. exists e. split; [done|]. by left.
  - eapply unmarked_fun; [done|exact Hs| |done].
    intros p Hp Hl. destruct (Hfirst pre e post p (g_caller e) Hg' Hp (or_introl eq_refl) Hl) as (d & [Hd|[[] _]] & Hn1 & Hn2); [|done]. rewrite <- Hn1, <- Hn2.
    by apply Hbefore.
Qed.

(** ** What nodes say *)
Definition made_as (graph : list gedge) (x : string) (n : dnode) : Prop :=
  ∃ e, e ∈ graph ∧ (c_base (g_caller e) = x ∧ n = node_caller e (n_id n) (n_parent n) ∨ c_base (g_callee e) = x ∧ n = node_callee graph e (n_id n) (n_parent n) ∨
    ∃ p, g_parent e = Some p ∧ c_base p = x ∧ n = node_parent graph p (n_id n)).
Lemma text_fun graph e c mk w :
  e ∈ graph → (∀ id p, made_as graph (c_base c) (mk id p)) → (∀ x n, (x, n) ∈ w_nodes w → made_as graph x n) →
  ∀ x n, (x, n) ∈ w_nodes (draw_fun graph c (g_parent e) mk w) → made_as graph x n.
Proof.
  intros He Hmk Hw x n. destruct (draw_fun_cases graph c (g_parent e) mk w) as [? | Hv Hplain | p i b m Hv Hp Hl Hn | p Hv Hp Hl Hn]; cbn [w_nodes].
  - apply Hw.
  - intros [Hin|[= -> ->]%elem_of_list_singleton]%elem_of_app; [by eapply Hw|apply Hmk].
  - intros [Hin|[= -> ->]%elem_of_list_singleton]%elem_of_app; [by eapply Hw|apply Hmk].
  - intros [Hin|[[= -> ->]|[= -> ->]%elem_of_list_singleton]%elem_of_cons]%elem_of_app; [by eapply Hw| |apply Hmk].
    exists e. split; [done|]. right. right. by exists p.
Qed.
Lemma text_prefix graph pre post : graph = pre ++ post → ∀ x n, (x, n) ∈ w_nodes (foldl (draw_edge graph) nothing_drawn pre) → made_as graph x n.
Proof.
  revert post. induction pre as [|e pre IH] using rev_ind; intros post Hg; [intros ?? []%elem_of_nil|].
  assert (graph = pre ++ e :: post) as Hg' by (by rewrite Hg, <- app_assoc).
  assert (e ∈ graph) as He by (rewrite Hg'; apply elem_of_app; right; apply elem_of_cons; by left).
  rewrite foldl_snoc. specialize (IH _ Hg'). rewrite draw_edge_nodes.
  apply (text_fun graph e); [done|intros; exists e; split; [done|]; right; by left|].
  apply (text_fun graph e); [done|intros; exists e; split; [done|]; by left|]. done.
Qed.
Lemma fun_label_spec c : labelled (fun_label c) c.
Proof.
  unfold fun_label, labelled. exists (if is_literal (c_name c) then "FuncLit" else c_name c). split.
  - destruct (is_literal (c_name c)) eqn:Hl; [left|right]; (split; [|done]); [by apply is_literal_spec|].
    intros H%is_literal_spec. congruence.
  - destruct (decide (c_recv c = "")) as [Hr|Hr]; [rewrite bool_decide_eq_true_2 by done|rewrite bool_decide_eq_false_2 by done]; auto.
Qed.
Lemma path_entry_spec e pos : (path_entry e).2 = pos ↔ made_at e pos.
Proof.
  unfold path_entry, made_at. cbn [snd]. destruct (is_literal (c_name (g_caller e))) eqn:Hl.
  - pose proof (proj1 (is_literal_spec _) Hl) as [rest Hrest]. rewrite Hrest.
    destruct (decide (g_pos e = "")) as [Hp|Hp]; [rewrite bool_decide_eq_true_2 by done|rewrite bool_decide_eq_false_2 by done]; cbn [andb].
    + assert (str_drop (String.length lit_prefix) ("FuncLit:" +:+ rest) = rest) as -> by (apply (str_drop_app lit_prefix)).
      split; [intros <-; by right|]. intros [[[?|Hno] _]|[_ Heq%sapp_inj_l]]; [done|by destruct Hno; exists rest|done].
    + split; [intros <-; left; auto|]. intros [[_ ->]|[? _]]; done.
  - cbn [andb]. assert (¬ ∃ rest, c_name (g_caller e) = "FuncLit:" +:+ rest) as Hno by (intros H%is_literal_spec; congruence).
    split; [intros <-; left; auto|]. intros [[_ ->]|[_ ?]]; [done|]. destruct Hno. by exists pos.
Qed.
Lemma add_paths es :
  let acc := foldl add_path (∅, []) es in
  (∀ pos, pos ∈ acc.2 → ∃ e, e ∈ es ∧ (path_entry e).2 = pos) ∧
  (∀ k, k ∈ acc.1 → ∃ e, e ∈ es ∧ (path_entry e).1 = k ∧ (path_entry e).2 ∈ acc.2) ∧
  (∀ e, e ∈ es → (path_entry e).1 ∈ acc.1).
Proof.
  cbn zeta. induction es as [|e es (IH1 & IH2 & IH3)] using rev_ind.
  { cbn. split; [intros ? []%elem_of_nil|]. split; [set_solver|intros ? []%elem_of_nil]. }
  rewrite foldl_snoc. set (acc := foldl add_path (∅, []) es) in *. unfold add_path. destruct (path_entry e) as [key pos] eqn:He.
  destruct (decide (key ∈ acc.1)) as [Hk|Hk]; [rewrite bool_decide_eq_true_2 by done|rewrite bool_decide_eq_false_2 by done; cbn [fst snd]]; split; [|split| |split].
  - intros p Hp. destruct (IH1 p Hp) as (e' & ? & ?). exists e'. rewrite elem_of_app. auto.
  - intros k Hin. destruct (IH2 k Hin) as (e' & ? & ?). exists e'. rewrite elem_of_app. auto.
  - intros e' [Hin | ->%elem_of_list_singleton]%elem_of_app; [by apply IH3|by rewrite He].
  - intros p [Hp | ->%elem_of_list_singleton]%elem_of_app.
    + destruct (IH1 p Hp) as (e' & ? & ?). exists e'. rewrite elem_of_app. auto.
    + exists e. rewrite He, elem_of_app, elem_of_list_singleton. auto.
  - intros k [->%elem_of_singleton|Hin]%elem_of_union.
    + exists e. rewrite He, !elem_of_app, !elem_of_list_singleton. auto.
    + destruct (IH2 k Hin) as (e' & ? & ? & ?). exists e'. rewrite !elem_of_app. auto.
  - intros e' [Hin | ->%elem_of_list_singleton]%elem_of_app; apply elem_of_union; [right; by apply IH3|left]. rewrite He. by apply elem_of_singleton.
Qed.
Lemma path_key_pos graph e e' : no_colons graph → e ∈ graph → e' ∈ graph → (path_entry e).1 = (path_entry e').1 → (path_entry e).2 = (path_entry e').2.
Proof.
  intros Hno He He'. unfold path_entry. cbn [fst snd].
  set (p := if is_literal (c_name (g_caller e)) && _ then _ else _). set (p' := if is_literal (c_name (g_caller e')) && _ then _ else _).
  assert (∀ e, e ∈ graph → contains_byte ":" (c_pkg (g_caller e) +:+ "." +:+ (if is_literal (c_name (g_caller e)) then "FuncLit" else c_name (g_caller e))) = false) as Hc.
  { intros e0 He0. destruct (Hno e0 He0) as [Hp Hn]. rewrite !contains_app, Hp. cbn [orb].
    destruct (is_literal (c_name (g_caller e0))) eqn:Hl; [done|]. destruct Hn as [Hn|Hn]; [apply is_literal_spec in Hn; congruence|]. by rewrite Hn. }
  pose proof (Hc e He) as H1. pose proof (Hc e' He') as H2.
  assert (∀ (a b c : string), a +:+ "." +:+ b +:+ ":" +:+ c = (a +:+ "." +:+ b) +:+ String ":" c) as Hre.
  { intros. rewrite !sapp_assoc. done. }
  intros Heq. rewrite !Hre in Heq. by apply (first_split_inj ":") in Heq as [_ ?].
Qed.
Lemma call_paths_spec graph f pos :
  (pos ∈ call_paths graph f → ∃ e, e ∈ graph ∧ c_base (g_callee e) = f ∧ made_at e pos) ∧
  (no_colons graph → (∃ e, e ∈ graph ∧ c_base (g_callee e) = f ∧ made_at e pos) → pos ∈ call_paths graph f).
Proof.
  unfold call_paths. destruct (add_paths (filter (λ e, c_base (g_callee e) = f) graph)) as (H1 & H2 & H3). split.
  - intros Hp. destruct (H1 pos Hp) as (e & [Hf He]%elem_of_list_filter & Heq). exists e. split; [done|]. split; [done|]. by apply path_entry_spec.
  - intros Hno (e & He & Hf & <-%path_entry_spec). assert (e ∈ filter (λ e, c_base (g_callee e) = f) graph) as Hin by (by apply elem_of_list_filter).
    destruct (H2 _ (H3 e Hin)) as (e' & [_ He']%elem_of_list_filter & Hk & Hp). by rewrite (path_key_pos graph e e') by done.
Qed.
