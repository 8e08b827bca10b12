(** * C83: reachability in the resolved call graph. *)
From Coq Require Import Ascii ZArith.
From stdpp Require Import sorting.
From stdpp Require Import base list strings gmap relations.
From Verif Require Import StrLib StrOrder PathModel SccSpec WrapProofs2 CgModel.

(** ** The graph *)
Section calls.
  Context (nodes : list nat) (out : nat → list (option nat)).
  (** A node calls a function. *)
  Definition calls (f g : nat) : Prop := f ∈ nodes ∧ Some g ∈ out f.
End calls.
(** sort.Slice with [sortFunctions]' comparison: some arrangement of the list in which no element comes
    before a smaller one. *)
Definition sorts (info : nat → finfo) (sort_slice : list nat → list nat) : Prop :=
  ∀ l, sort_slice l ≡ₚ l ∧ StronglySorted (fn_le info) (sort_slice l).

Lemma distinct_callees_spec es : ∀ seen, (∀ g, g ∈ distinct_callees seen es ↔ Some g ∈ es ∧ g ∉ seen) ∧ NoDup (distinct_callees seen es).
Proof.
  induction es as [|[g|] es IH]; intros seen; cbn [distinct_callees].
  - split; [|constructor]. intros g. rewrite !elem_of_nil. naive_solver.
  - destruct (decide (g ∈ seen)) as [Hg|Hg].
    + destruct (IH seen) as [H1 H2]. split; [|done]. intros h. rewrite H1, elem_of_cons. split; [intros [? ?]; by auto|]. intros [[[= ->]|?] ?]; done.
    + destruct (IH ({[g]} ∪ seen)) as [H1 H2]. split.
      * intros h. rewrite !elem_of_cons, H1, elem_of_union, elem_of_singleton. split.
        -- intros [-> |[? Hn]]; [by auto|]. split; [by right|]. intros ?. apply Hn. by right.
        -- intros [[[= ->]|?] Hn]; [by left|]. destruct (decide (h = g)) as [-> |Hne]; [by left|]. right. split; [done|]. by intros [?|?].
      * apply NoDup_cons. split; [|done]. rewrite H1, elem_of_union, elem_of_singleton. intros [_ Hn]. apply Hn. by left.
  - destruct (IH seen) as [H1 H2]. split; [|done]. intros h. rewrite H1, elem_of_cons. split; [intros [? ?]; by auto|]. intros [[?|?] ?]; done.
Qed.

Section reach.
  Context (nodes : list nat) (out : nat → list (option nat)) (sort_slice : list nat → list nat).
  Context (Hsort : ∀ l, sort_slice l ≡ₚ l).
  Notation callees := (callees_of nodes out sort_slice).
  Notation calls := (calls nodes out).

  Lemma callees_spec f g : g ∈ callees f ↔ calls f g.
  Proof.
    unfold callees_of, CgProps.calls. destruct (decide (f ∈ nodes)) as [Hf|Hf]; [|rewrite elem_of_nil; by split; [|intros []]].
    rewrite Hsort, (proj1 (distinct_callees_spec _ _)). split; [intros [? _]; done|]. intros [_ ?]. split; [done|]. apply not_elem_of_empty.
  Qed.
  Lemma visit_spec ms visited cs : ∀ queue,
    match visit ms visited queue cs with
    | None => ∃ c, c ∈ cs ∧ ms c = true
    | Some q => (∀ c, c ∈ cs → ms c = false) ∧ (∀ x, x ∈ q ↔ x ∈ queue ∨ x ∈ cs ∧ x ∉ visited) ∧ length q ≤ length queue + length cs
    end.
  Proof.
    induction cs as [|c cs IH]; intros queue; cbn [visit].
    - split; [by intros ? ?%elem_of_nil|]. split; [|cbn; lia]. intros x. rewrite elem_of_nil. naive_solver.
    - destruct (ms c) eqn:Em; [exists c; split; [left|done]|]. specialize (IH (if decide (c ∈ visited) then queue else queue ++ [c])).
      destruct (visit _ _ _ _) as [q|]; [|destruct IH as (c' & ? & ?); exists c'; split; [by right|done]].
      destruct IH as (H1 & H2 & H3). split; [intros c' [-> |?]%elem_of_cons; [done|by apply H1]|]. split.
      + intros x. rewrite H2, elem_of_cons. destruct (decide (c ∈ visited)) as [Hc|Hc].
        * split; [intros [?|[? ?]]; auto|]. intros [?|[[-> |?] ?]]; auto. done.
        * rewrite elem_of_app, elem_of_list_singleton. split; [intros [[?| ->]|[? ?]]; auto|]. intros [?|[[-> |?] ?]]; auto.
      + destruct (decide (c ∈ visited)); [|rewrite app_length in H3]; cbn in *; lia.
  Qed.

  (** Invariant: what has been visited did not match and its callees are visited or waiting. *)
  Record rinv (ms : nat → bool) (from : list nat) (visited : gset nat) (queue : list nat) : Prop := RInv {
    r_from : ∀ f, f ∈ from → f ∈ visited ∨ f ∈ queue;
    r_sound : ∀ x, x ∈ visited ∨ x ∈ queue → ∃ f, f ∈ from ∧ rtc calls f x;
    r_closed : ∀ x y, x ∈ visited → calls x y → ms y = false ∧ (y ∈ visited ∨ y ∈ queue);
  }.
  Lemma reach_loop_spec ms from n : ∀ visited queue, rinv ms from visited queue →
    match reach_loop nodes out sort_slice ms n visited queue with
    | None => True
    | Some b => b = true ↔ ∃ f g, f ∈ from ∧ tc calls f g ∧ ms g = true
    end.
  Proof.
    induction n as [|n IH]; intros visited queue I; destruct queue as [|x queue]; cbn [reach_loop]; try done.
    1,2: split; [done|]; intros (f & g & Hf & Ht & Hm); exfalso;
      assert (f ∈ visited) as Hv by (by destruct (r_from _ _ _ _ I f Hf) as [?|?%elem_of_nil]);
      revert Hv Hm; clear Hf; induction Ht as [a b Hab|a b c Hab Ht IHt]; intros Hv Hm;
      [destruct (r_closed _ _ _ _ I _ _ Hv Hab) as [? _]; congruence
      |apply IHt; [by destruct (r_closed _ _ _ _ I _ _ Hv Hab) as [_ [?|?%elem_of_nil]]|done]].
    destruct (decide (x ∈ visited)) as [Hx|Hx].
    - apply IH. destruct I as [I1 I2 I3]. constructor.
      + intros f Hf. destruct (I1 f Hf) as [?|[-> |?]%elem_of_cons]; auto.
      + intros y [?|?]; apply I2; [by left|right; by right].
      + intros y z Hy Hyz. destruct (I3 y z Hy Hyz) as [? [?|[-> |?]%elem_of_cons]]; auto.
    - pose proof (visit_spec ms ({[x]} ∪ visited) (callees x) queue) as Hvis. destruct (visit _ _ _ _) as [q|].
      + destruct Hvis as (V1 & V2 & _). apply IH. destruct I as [I1 I2 I3]. constructor.
        * intros f Hf. rewrite elem_of_union, elem_of_singleton, V2. destruct (I1 f Hf) as [?|[-> |?]%elem_of_cons]; auto.
        * intros y. rewrite elem_of_union, elem_of_singleton, V2. intros [[-> |?]|[?|[Hy _]]]; [apply I2; right; left|apply I2; by left|apply I2; right; by right|].
          destruct (I2 x) as (f & Hf & Hr); [right; left|]. exists f. split; [done|]. eapply rtc_r; [exact Hr|]. by apply callees_spec.
        * intros y z. rewrite !elem_of_union, !elem_of_singleton, V2. intros [-> |Hy] Hyz.
          -- apply callees_spec in Hyz. split; [by apply V1|]. destruct (decide (z = x)) as [-> |Hne]; [by auto|]. destruct (decide (z ∈ visited)) as [?|Hn]; [by auto|].
             right. right. split; [done|]. rewrite elem_of_union, elem_of_singleton. by intros [?|?].
          -- destruct (I3 y z Hy Hyz) as [? [?|[-> |?]%elem_of_cons]]; auto.
      + destruct Hvis as (c & Hc & Hm). split; [|done]. intros _. destruct I as [_ I2 _]. destruct (I2 x) as (f & Hf & Hr); [right; left|].
        exists f, c. split; [done|]. split; [|done]. eapply tc_rtc_l; [exact Hr|]. apply tc_once. by apply callees_spec.
  Qed.

  (** Work left: the queue and the callees of what has not been visited. *)
  Definition left_over (visited : gset nat) : nat := sum_list_with (λ f, if decide (f ∈ visited) then 0 else length (callees f)) (remove_dups nodes).
  Lemma left_over_visit visited x : x ∉ visited → left_over ({[x]} ∪ visited) + length (callees x) ≤ left_over visited.
  Proof.
    intros Hx. unfold left_over. assert (x ∈ remove_dups nodes ∨ callees x = []) as Hc.
    { destruct (decide (x ∈ nodes)) as [?|Hn]; [left; by apply elem_of_remove_dups|]. right. unfold callees_of. by rewrite decide_False. }
    assert (NoDup (remove_dups nodes)) as Hnd by apply NoDup_remove_dups. revert Hnd Hc. generalize (remove_dups nodes). intros l.
    assert (∀ l, sum_list_with (λ f, if decide (f ∈ {[x]} ∪ visited) then 0 else length (callees f)) l ≤ sum_list_with (λ f, if decide (f ∈ visited) then 0 else length (callees f)) l) as Hle.
    { induction l0 as [|a l0 IH]; [done|]. cbn [sum_list_with]. destruct (decide (a ∈ visited)) as [Ha|Ha].
      - rewrite decide_True by (apply elem_of_union; by right). lia.
      - destruct (decide _); lia. }
    induction l as [|a l IH]; intros Hnd Hc.
    - destruct Hc as [?%elem_of_nil| ->]; [done|]. cbn. lia.
    - cbn [sum_list_with]. apply NoDup_cons in Hnd as [Ha Hnd]. destruct (decide (a = x)) as [-> |Hne].
      + rewrite decide_True by (apply elem_of_union; left; by apply elem_of_singleton). rewrite decide_False by done. pose proof (Hle l). lia.
      + assert (left_over_a : (if decide (a ∈ {[x]} ∪ visited) then 0 else length (callees a)) = (if decide (a ∈ visited) then 0 else length (callees a))).
        { destruct (decide (a ∈ visited)); [rewrite decide_True; [done|]; apply elem_of_union; by right|]. rewrite decide_False; [done|].
          rewrite elem_of_union, elem_of_singleton. by intros [?|?]. }
        rewrite left_over_a. assert (x ∈ l ∨ callees x = []) as Hc' by (destruct Hc as [[?|?]%elem_of_cons|?]; [congruence|by left|by right]).
        specialize (IH Hnd Hc'). lia.
  Qed.
  Lemma reach_loop_total ms n : ∀ visited queue, length queue + left_over visited ≤ n → is_Some (reach_loop nodes out sort_slice ms n visited queue).
  Proof.
    induction n as [|n IH]; intros visited queue Hn; destruct queue as [|x queue]; cbn [reach_loop]; try (by eexists); cbn in Hn; [lia|].
    destruct (decide (x ∈ visited)) as [Hx|Hx]; [apply IH; lia|].
    pose proof (visit_spec ms ({[x]} ∪ visited) (callees x) queue) as Hvis. destruct (visit _ _ _ _) as [q|]; [|by eexists].
    destruct Hvis as (_ & _ & Hl). apply IH. pose proof (left_over_visit visited x Hx). lia.
  Qed.
End reach.

(** ** Theorems *)
(** The callees of a node are exactly the functions it calls, each once, in the order of the comparison;
    those of an ID exactly the nodes with that ID. *)
Theorem C83_callees (info : nat → finfo) (nodes : list nat) (out : nat → list (option nat)) (sort_slice : list nat → list nat) (f : nat) :
  sorts info sort_slice →
  (∀ g, g ∈ callees_of nodes out sort_slice f ↔ f ∈ nodes ∧ Some g ∈ out f) ∧ NoDup (callees_of nodes out sort_slice f) ∧
  StronglySorted (fn_le info) (callees_of nodes out sort_slice f) ∧
  ∀ id, id ≠ "" → ∀ g, g ∈ by_id info nodes sort_slice id ↔ g ∈ nodes ∧ function_id info g = id.
Proof.
  intros Hs. split; [|split; [|split]].
  - intros g. apply callees_spec. intros l. apply Hs.
  - unfold callees_of. destruct (decide _); [|constructor]. rewrite (proj1 (Hs _)). apply distinct_callees_spec.
  - unfold callees_of. destruct (decide _); [|constructor]. apply Hs.
  - intros id Hid g. unfold by_id. rewrite (proj1 (Hs _)), elem_of_list_filter. split; [intros [[_ ?] ?]; done|]. intros [? E]. split; [|done]. by rewrite E.
Qed.
(** The walk ends on every finite graph, and answers whether a function with the ID calls, directly or
    through others, a function that matches — whatever the order of nodes, edges and equal functions. *)
Theorem C83_reaches (info : nat → finfo) (nodes : list nat) (out : nat → list (option nat)) (sort_slice : list nat → list nat)
    (from : string) (matches : nat → bool) :
  sorts info sort_slice → from ≠ "" →
  ∃ n b, (∀ m, n ≤ m → reaches info nodes out sort_slice m from matches = Some b) ∧
    (b = true ↔ ∃ f g, f ∈ nodes ∧ function_id info f = from ∧ tc (calls nodes out) f g ∧ matches g = true).
Proof.
  intros Hs Hf. set (n := length (by_id info nodes sort_slice from) + left_over nodes out sort_slice ∅).
  assert (∀ l, sort_slice l ≡ₚ l) as Hp by (intros l; apply Hs).
  assert (rinv nodes out matches (by_id info nodes sort_slice from) ∅ (by_id info nodes sort_slice from)) as I.
  { constructor; [by right|intros x [?%elem_of_empty|?]; [done|]; by exists x|by intros x y ?%elem_of_empty]. }
  assert (∀ m, n ≤ m → ∃ b, reaches info nodes out sort_slice m from matches = Some b ∧
    (b = true ↔ ∃ f g, f ∈ nodes ∧ function_id info f = from ∧ tc (calls nodes out) f g ∧ matches g = true)) as H.
  { intros m Hm. unfold reaches. pose proof (reach_loop_spec nodes out sort_slice Hp matches _ m _ _ I) as H.
    destruct (reach_loop_total nodes out sort_slice matches m ∅ (by_id info nodes sort_slice from)) as [b Hb]; [done|]. rewrite Hb in *. exists b. split; [done|].
    rewrite H. split; intros (f & g & H1 & H2).
    - apply (C83_callees info nodes out sort_slice 0 Hs) in H1 as [? ?]; [|done]. exists f, g. by destruct H2.
    - destruct H2 as (H2 & H3). exists f, g. split; [|done]. by apply (C83_callees info nodes out sort_slice 0 Hs). }
  destruct (H n) as (b & Hb & Hiff); [done|]. exists n, b. split; [|done]. intros m Hm. destruct (H m Hm) as (b' & Hb' & Hiff'). rewrite Hb'. f_equal.
  destruct b, b'; try done; [by apply Hiff', Hiff|symmetry; by apply Hiff, Hiff'].
Qed.
(** Connections compose: what reaches an ID that names one function reaches all that ID reaches. *)
Theorem C83_compose (info : nat → finfo) (nodes : list nat) (out : nat → list (option nat)) (sort_slice : list nat → list nat) (a b c : string) :
  sorts info sort_slice → a ≠ "" → b ≠ "" → (∀ f g, function_id info f = b → function_id info g = b → f = g) →
  (∃ n, reaches_id info nodes out sort_slice n a b = Some true) → (∃ n, reaches_id info nodes out sort_slice n b c = Some true) →
  ∃ n, reaches_id info nodes out sort_slice n a c = Some true.
Proof.
  intros Hs Ha Hb Hu [n1 H1] [n2 H2].
  assert (∀ x y n, x ≠ "" → reaches_id info nodes out sort_slice n x y = Some true → ∃ f g, f ∈ nodes ∧ function_id info f = x ∧ tc (calls nodes out) f g ∧ function_id info g = y) as Hto.
  { intros x y n Hx H. assert (∀ l, sort_slice l ≡ₚ l) as Hp by (intros l; apply Hs). unfold reaches_id, reaches in H.
    assert (rinv nodes out (λ f, bool_decide (function_id info f = y)) (by_id info nodes sort_slice x) ∅ (by_id info nodes sort_slice x)) as I.
    { constructor; [by right|intros z [?%elem_of_empty|?]; [done|]; by exists z|by intros z z' ?%elem_of_empty]. }
    pose proof (reach_loop_spec nodes out sort_slice Hp _ _ n _ _ I) as Hr. rewrite H in Hr. destruct (proj1 Hr eq_refl) as (f & g & Hf & Ht & Hm).
    apply (C83_callees info nodes out sort_slice 0 Hs) in Hf as [? ?]; [|done]. exists f, g. by apply bool_decide_eq_true in Hm. }
  destruct (Hto a b n1 Ha H1) as (f & g & Hf & Hfa & Hfg & Hgb). destruct (Hto b c n2 Hb H2) as (g' & h & Hg' & Hgb' & Hgh & Hhc).
  assert (g = g') as <- by (by apply Hu). destruct (C83_reaches info nodes out sort_slice a (λ f, bool_decide (function_id info f = c)) Hs Ha) as (n & r & Hn & Hr).
  exists n. unfold reaches_id. rewrite Hn by done. f_equal. apply Hr. exists f, h. split; [done|]. split; [done|]. split; [by etrans|]. by apply bool_decide_eq_true.
Qed.
Print Assumptions C83_callees.
Print Assumptions C83_reaches.
Print Assumptions C83_compose.

(** Two runs over the same graph, walking its maps in different orders, agree when no two functions are
    equal in ID, position and text. *)
Theorem C83_same_lists (info : nat → finfo) (nodes nodes2 : list nat) (out out2 : nat → list (option nat)) (sort_slice sort_slice2 : list nat → list nat) (f : nat) (id : string) :
  sorts info sort_slice → sorts info sort_slice2 → nodes ≡ₚ nodes2 → (∀ f, out f ≡ₚ out2 f) →
  (∀ f g, function_id info f = function_id info g → fi_pos (info f) = fi_pos (info g) → fi_text (info f) = fi_text (info g) → f = g) →
  callees_of nodes out sort_slice f = callees_of nodes2 out2 sort_slice2 f ∧ by_id info nodes sort_slice id = by_id info nodes2 sort_slice2 id ∧
  ids info nodes = ids info nodes2.
Proof.
  intros Hs1 Hs2 Hn Ho Hd.
  assert (∀ a b, fn_le info a b → fn_le info b a → a = b) as Hanti.
  { intros a b [[H1 H2]|[E1 H1]] [[G1 G2]|[E2 G1]]; try congruence; [destruct H1; by apply (anti_symm string_le)|].
    destruct H1 as [[H1 H2]|[H1 H2]], G1 as [[G1 G2]|[G1 G2]]; try congruence; [lia|]. apply Hd; [done|done|by apply (anti_symm string_le)]. }
  assert (∀ l1 l2, l1 ≡ₚ l2 → sort_slice l1 = sort_slice2 l2) as Heq.
  { intros l1 l2 Hl. apply (sorted_perm_eq (fn_le info)); [by intros a b _ _; apply Hanti|apply Hs1|apply Hs2|]. rewrite (proj1 (Hs1 _)), (proj1 (Hs2 _)). done. }
  split; [|split].
  - unfold callees_of. destruct (decide (f ∈ nodes)) as [H|H]; rewrite Hn in H.
    + rewrite decide_True by done. apply Heq. apply NoDup_Permutation; [apply distinct_callees_spec|apply distinct_callees_spec|]. intros g.
      rewrite !(proj1 (distinct_callees_spec _ _)). by rewrite Ho.
    + by rewrite decide_False.
  - unfold by_id. apply Heq. by rewrite Hn.
  - unfold ids. f_equal. f_equal. apply set_eq. intros s. by rewrite !elem_of_list_to_set, Hn.
Qed.
(** The IDs are those of the nodes that have one, sorted and once each. *)
Theorem C83_ids (info : nat → finfo) (nodes : list nat) :
  (∀ s, s ∈ ids info nodes ↔ s ≠ "" ∧ ∃ f, f ∈ nodes ∧ function_id info f = s) ∧ NoDup (ids info nodes) ∧ StronglySorted string_le (ids info nodes).
Proof.
  unfold ids. split; [|split].
  - intros s. rewrite merge_sort_Permutation, elem_of_elements, elem_of_list_to_set, elem_of_list_filter, elem_of_list_fmap. split.
    + intros (? & f & -> & ?). split; [done|]. by exists f.
    + intros (? & f & ? & <-). split; [done|]. by exists f.
  - rewrite merge_sort_Permutation. apply NoDup_elements.
  - apply (StronglySorted_merge_sort string_le).
Qed.
(** An instantiation has the ID of its origin; a pointer receiver that of the value receiver. *)
Theorem C83_identity (info : nat → finfo) (f g : nat) :
  (fi_origin (info f) = Some g → fi_origin (info g) = None → function_id info f = function_id info g) ∧
  (∀ t, (∀ t', t ≠ RPtr t') → fi_origin (info f) = None → fi_origin (info g) = None → fi_recv (info f) = Some (RPtr t) → fi_recv (info g) = Some t →
    fi_pkg (info f) = fi_pkg (info g) → fi_obj_pkg (info f) = fi_obj_pkg (info g) → fi_name (info f) = fi_name (info g) → function_id info f = function_id info g).
Proof.
  split.
  - intros H1 H2. unfold function_id. rewrite H1, H2. done.
  - intros t Ht H1 H2 H3 H4 H5 H6 H7. unfold function_id. rewrite H1, H2. cbn [default from_option id]. rewrite H3, H4, H5, H6, H7.
    destruct (bool_decide _); [done|]. assert (bare_recv (RPtr t) = bare_recv t) as ->; [|done]. destruct t as [t'|n|n|n]; [by destruct (Ht t')|done|done|done].
Qed.
Print Assumptions C83_same_lists.
Print Assumptions C83_ids.
Print Assumptions C83_identity.

(** ** Cases: main calls a handler through a loop of two functions. *)
Definition plain_fn (pkg name : string) (pos : Z) : finfo := FInfo None (Some pkg) None None name pos (pkg +:+ "." +:+ name).
Definition ex_info (f : nat) : finfo :=
  match f with
  | 0 => plain_fn "m" "main" 1 | 1 => plain_fn "m" "loop" 2 | 2 => plain_fn "m" "again" 3
  | 3 => FInfo None (Some "m/h") None (Some (RPtr (RNamed "Server"))) "Serve" 4 "(*m/h.Server).Serve"
  | 4 => FInfo (Some 1) None None None "loop[int]" 2 "m.loop[int]"
  | _ => FInfo None None None None "" 0 ""
  end.
Definition ex_nodes : list nat := [2; 0; 3; 1; 4].
Definition ex_out (f : nat) : list (option nat) :=
  match f with 0 => [Some 1; None; Some 1] | 1 => [Some 2] | 2 => [Some 1; Some 3] | _ => [] end.
Definition fn_le_total (info : nat → finfo) (f g : nat) : Decision (fn_le info f g).
Proof. unfold fn_le. apply _. Defined.
Definition ex_sort (l : list nat) : list nat := @merge_sort nat (fn_le ex_info) (fn_le_total ex_info) l.
Lemma fn_le_preorder info : Transitive (fn_le info) ∧ Total (fn_le info).
Proof.
  split.
  - intros a b c H1 H2. unfold fn_le in *. destruct H1 as [[N1 L1]|[E1 H1]], H2 as [[N2 L2]|[E2 H2]].
    + left. split; [|by etrans]. intros E. apply N1. apply (anti_symm string_le); [done|]. by rewrite E.
    + left. by rewrite <- E2.
    + left. by rewrite E1.
    + right. split; [congruence|]. destruct H1 as [[N1 L1]|[E1' H1]], H2 as [[N2 L2]|[E2' H2]].
      * left. lia.
      * left. lia.
      * left. lia.
      * right. split; [congruence|by etrans].
  - intros a b. unfold fn_le. destruct (decide (function_id info a = function_id info b)) as [E|E].
    + destruct (decide (fi_pos (info a) = fi_pos (info b))) as [E'|E'].
      * destruct (total string_le (fi_text (info a)) (fi_text (info b))) as [?|?]; [left|right]; right; (split; [done|]); right; done.
      * destruct (decide (fi_pos (info a) <= fi_pos (info b))%Z); [left|right]; right; (split; [done|]); left; (split; [congruence|lia]).
    + destruct (total string_le (function_id info a) (function_id info b)) as [?|?]; [left|right]; left; by (split; [congruence|]).
Qed.
(** There is such a sort. *)
Lemma ex_sorts : sorts ex_info ex_sort.
Proof.
  intros l. destruct (fn_le_preorder ex_info). split; [apply merge_sort_Permutation|]. apply (StronglySorted_merge_sort (fn_le ex_info)).
Qed.
Example C83_example :
  reaches_id ex_info ex_nodes ex_out ex_sort 20 "m.main" "m/h.Server.Serve" = Some true ∧
  reaches_id ex_info ex_nodes ex_out ex_sort 20 "m/h.Server.Serve" "m.main" = Some false ∧
  reaches_id ex_info ex_nodes ex_out ex_sort 20 "m.main" "m.main" = Some false ∧
  reaches_id ex_info ex_nodes ex_out ex_sort 20 "m.loop" "m.loop" = Some true ∧
  callees_of ex_nodes ex_out ex_sort 2 = [1; 3] ∧ by_id ex_info ex_nodes ex_sort "m.loop" = [1; 4] ∧ ids ex_info ex_nodes = ["m.again"; "m.loop"; "m.main"; "m/h.Server.Serve"].
Proof. by vm_compute. Qed.

(** Full statement, false: the ID says which function it is. A package path may end in a dot and a
    name, and then a function of it has the ID of a method. *)
Theorem C83_id_refuted : ∃ info f g, function_id info f = function_id info g ∧ fi_recv (info f) = None ∧ fi_recv (info g) ≠ None ∧ fi_pkg (info f) ≠ fi_pkg (info g).
Proof.
  exists (λ f, match f with 0 => plain_fn "example.com/yaml.v2" "Load" 1 | _ => FInfo None (Some "example.com/yaml") None (Some (RNamed "v2")) "Load" 2 "" end), 0, 1.
  split; [by vm_compute|]. split; [done|]. split; [done|]. done.
Qed.
Print Assumptions C83_id_refuted.
