(** * Where an encoder writes and a decoder reads: proofs. *)
From stdpp Require Import base numbers list strings gmap.
From Verif Require Import ProvModel ProvSpec.

(** ** Arguments and what is below them *)
Lemma arg_below (P : arg → Prop) :
  (∀ a, (∀ y, g_x a = Some y → P y) → (∀ y, g_sel a = Some y → P y) → (∀ y, g_fun a = Some y → P y) → (∀ e, e ∈ g_args a → P e) → P a) → ∀ a, P a.
Proof.
  intros H. fix IH 1. intros a. apply H; destruct a as [k i nm t r inf x sel fn args]; cbn.
  - destruct x as [y|]; intros ? [= <-]. apply IH.
  - destruct sel as [y|]; intros ? [= <-]. apply IH.
  - destruct fn as [y|]; intros ? [= <-]. apply IH.
  - apply Forall_forall. exact ((fix go (l : list arg) : Forall P l := match l with [] => List.Forall_nil P | x :: l => @List.Forall_cons _ P x l (IH x) (go l) end) args).
Qed.
Lemma elem_of_option_list {A} (o : option A) x : x ∈ option_list o ↔ o = Some x.
Proof. destruct o as [y|]; cbn; [rewrite elem_of_list_singleton; split; [by intros -> |by intros [= ->]]|]. split; [by intros ?%elem_of_nil|done]. Qed.
Lemma elem_of_flat_map {A B} (f : A → list B) l b : b ∈ flat_map f l ↔ ∃ a, a ∈ l ∧ b ∈ f a.
Proof. rewrite !elem_of_list_In, in_flat_map. by setoid_rewrite elem_of_list_In. Qed.
Lemma subs_unfold a : subs a = a :: match g_x a with Some y => subs y | None => [] end ++ match g_sel a with Some y => subs y | None => [] end ++
       match g_fun a with Some y => subs y | None => [] end ++ flat_map subs (g_args a).
Proof. by destruct a. Qed.
Lemma elem_of_subs a b : b ∈ subs a ↔ b = a ∨ (∃ y, g_x a = Some y ∧ b ∈ subs y) ∨ (∃ y, g_sel a = Some y ∧ b ∈ subs y) ∨ (∃ y, g_fun a = Some y ∧ b ∈ subs y) ∨ (∃ e, e ∈ g_args a ∧ b ∈ subs e).
Proof.
  rewrite subs_unfold, elem_of_cons, !elem_of_app, elem_of_flat_map.
  assert (∀ o : option arg, b ∈ match o with Some y => subs y | None => [] end ↔ ∃ y, o = Some y ∧ b ∈ subs y) as Ho.
  { intros [y|]; split; [intros H; by exists y|by intros (? & [= <-] & ?)|by intros ?%elem_of_nil|by intros (? & [=] & ?)]. }
  by rewrite !Ho.
Qed.
Lemma subs_self a : a ∈ subs a. Proof. apply elem_of_subs. by left. Qed.
Lemma subs_trans a : ∀ b c, b ∈ subs a → c ∈ subs b → c ∈ subs a.
Proof.
  induction a as [a IHx IHs IHf IHa] using arg_below. intros b c Hb Hc.
  apply elem_of_subs in Hb as [-> |[(y & Hy & Hb)|[(y & Hy & Hb)|[(y & Hy & Hb)|(y & Hy & Hb)]]]]; [done|..]; apply elem_of_subs.
  - right; left. exists y. split; [done|]. by apply (IHx _ Hy b).
  - right; right; left. exists y. split; [done|]. by apply (IHs _ Hy b).
  - right; right; right; left. exists y. split; [done|]. by apply (IHf _ Hy b).
  - right; right; right; right. exists y. split; [done|]. by apply (IHa _ Hy b).
Qed.

(** ** The types of the specification are those of the code. *)
Lemma or_else_first a l : or_else a (first_set l) = first_set (a :: l).
Proof. unfold or_else, first_set. destruct (decide (a = "")) as [->|H]; [rewrite filter_cons_False by (by intros []); done|rewrite filter_cons_True by done; by rewrite bool_decide_eq_false_2]. Qed.
Lemma or_else_nil a : or_else a (first_set []) = a.
Proof. unfold or_else. destruct (decide (a = "")) as [->|H]; [done|by rewrite bool_decide_eq_false_2]. Qed.
Lemma ident_type_var s a : ident_type s a = var_type s a.
Proof.
  unfold ident_type, var_type. cbn [app]. rewrite <- !or_else_first. do 3 f_equal. destruct (s_traced s (g_name a)) as [o|]; [|done].
  by rewrite <- !or_else_first, or_else_nil.
Qed.
Lemma own_type_first a : own_type a = first_set [g_resolved a; g_type a; g_info a].
Proof. unfold own_type. by rewrite <- !or_else_first, or_else_nil. Qed.
Lemma ident_type_root s a : ident_type_r s a = root_type s a.
Proof. unfold ident_type_r, root_type. cbn [app]. rewrite <- !or_else_first. do 3 f_equal. destruct (s_traced s (g_name a)) as [o|]; [by rewrite <- or_else_first, or_else_nil|done]. Qed.
Lemma accessor_string_text l : accessor_string l = accessors l.
Proof. unfold accessors. induction l as [|g [|h l] IH]; [done..|]. change (accessor_string (g :: h :: l)) with (seg_string g +:+ "." +:+ accessor_string (h :: l)). by rewrite IH. Qed.
Lemma writer_ident_spec writer s a : writer_ident writer s a = true ↔ writer_variable writer s a.
Proof.
  unfold writer_ident, writer_variable. rewrite orb_true_iff, andb_true_iff, negb_true_iff, bool_decide_eq_false, ident_type_var.
  destruct (s_traced s (g_name a)) as [o|].
  - rewrite orb_true_iff, andb_true_iff, negb_true_iff, bool_decide_eq_false. split.
    + intros [H|[H1 H2]]; [by left|right]. split; [done|]. by exists o.
    + intros [H|(H1 & o' & [= <-] & H2)]; [by left|right]. by split.
  - split; [intros [H|[_ H]]; [by left|done]|]. intros [H|(_ & o' & [=] & _)]. by left.
Qed.

Section site.
Context (s : site) (top : arg).
Notation U := (universe s top).
Lemma universe_top : top ∈ U.
Proof. unfold universe. apply elem_of_app. left. apply subs_self. Qed.
Lemma universe_sub b c : b ∈ U → c ∈ subs b → c ∈ U.
Proof.
  unfold universe. rewrite !elem_of_app, !elem_of_flat_map. intros [Hb|(r & Hr & Hb)] Hc; [left|right; exists r; split; [done|]]; by eapply subs_trans.
Qed.
Lemma universe_assigned v rhs : s_assigned s !! v = Some rhs → rhs ∈ U.
Proof.
  intros H. unfold universe. apply elem_of_app. right. apply elem_of_flat_map. exists rhs. split; [|apply subs_self].
  apply elem_of_list_fmap. exists (v, rhs). split; [done|]. by apply elem_of_map_to_list.
Qed.
Lemma universe_x b y : b ∈ U → g_x b = Some y → y ∈ U.
Proof. intros Hb Hy. apply (universe_sub b); [done|]. apply elem_of_subs. right; left. exists y. split; [done|apply subs_self]. Qed.
Lemma universe_sel b y : b ∈ U → g_sel b = Some y → y ∈ U.
Proof. intros Hb Hy. apply (universe_sub b); [done|]. apply elem_of_subs. right; right; left. exists y. split; [done|apply subs_self]. Qed.
Lemma universe_arg b y : b ∈ U → y ∈ g_args b → y ∈ U.
Proof. intros Hb Hy. apply (universe_sub b); [done|]. apply elem_of_subs. right; right; right; right. exists y. split; [done|apply subs_self]. Qed.

Lemma strip_unfold passed a : strip passed a = if passed (g_kind a) then match g_x a with Some y => strip passed y | None => None end else Some a.
Proof. by destruct a. Qed.
Lemma strip_kind passed a b : strip passed a = Some b → passed (g_kind b) = false.
Proof.
  revert b. induction a as [a IHx _ _ _] using arg_below. intros b. rewrite strip_unfold. destruct (passed (g_kind a)) eqn:Hk; [|by intros [= <-]].
  destruct (g_x a) as [y|]; [|done]. by apply IHx.
Qed.
Lemma strip_universe passed a b : a ∈ U → strip passed a = Some b → b ∈ U.
Proof.
  revert b. induction a as [a IHx _ _ _] using arg_below. intros b Ha. rewrite strip_unfold. destruct (passed (g_kind a)); [|by intros [= <-]].
  destruct (g_x a) as [y|] eqn:Hy; [|done]. apply IHx; [done|]. by apply (universe_x a).
Qed.
Lemma strip_self passed a : passed (g_kind a) = false → strip passed a = Some a.
Proof. intros H. by rewrite strip_unfold, H. Qed.
Lemma pass_write_spec k : pass_write k = true ↔ k ∈ [KUnary; KStar; KParen].
Proof. split; [destruct k; try done; intros _; by apply (bool_decide_unpack _)|]. by intros [-> |[-> |[-> |[]%elem_of_nil]%elem_of_cons]%elem_of_cons]%elem_of_cons. Qed.
Lemma pass_write_false k : pass_write k = false ↔ k ∉ [KUnary; KStar; KParen].
Proof. rewrite <- pass_write_spec. by destruct (pass_write k). Qed.
Lemma pass_read_spec k : pass_read k = true ↔ k ∈ [KUnary; KStar].
Proof. split; [destruct k; try done; intros _; by apply (bool_decide_unpack _)|]. by intros [-> |[-> |[]%elem_of_nil]%elem_of_cons]%elem_of_cons. Qed.

(** Every ID met is one of these. *)
Definition ids : gset string := list_to_set (g_id <$> U).
Lemma ids_in b : b ∈ U → g_id b ∈ ids.
Proof. intros H. unfold ids. apply elem_of_list_to_set, elem_of_list_fmap. by exists b. Qed.
Lemma size_list_le (l : list string) : size (list_to_set l : gset string) ≤ length l.
Proof. induction l as [|x l IH]; cbn; [done|]. destruct (decide (x ∈ (list_to_set l : gset string))) as [H|H].
  - assert (({[x]} ∪ list_to_set l : gset string) = list_to_set l) as -> by set_solver. lia.
  - rewrite size_union by set_solver. rewrite size_singleton. lia. Qed.
Lemma ids_size : size ids ≤ length U.
Proof. unfold ids. etrans; [apply size_list_le|]. by rewrite fmap_length. Qed.
Lemma ids_visit (v : gset string) i : i ∈ ids → i ∉ v → size (ids ∖ ({[i]} ∪ v)) < size (ids ∖ v).
Proof. intros Hi Hv. apply subset_size. split; [set_solver|]. intros H. assert (i ∈ ids ∖ ({[i]} ∪ v)) as Hx by (apply H; set_solver). set_solver. Qed.
Lemma ids_mono (v v' : gset string) : v ⊆ v' → size (ids ∖ v') ≤ size (ids ∖ v).
Proof. intros H. apply subseteq_size. set_solver. Qed.

Section write.
Context (writer : string → bool).
Notation reaches := (reaches writer s).

(** The next arguments, and where the search ends. *)
Definition succs (a : arg) : list arg :=
  match g_kind a with
  | KIdent => if bool_decide (g_name a = "") then [] else option_list (s_assigned s !! g_name a)
  | KComposite | KKeyValue => g_args a ++ option_list (g_x a) ++ option_list (g_sel a)
  | KCall => g_args a
  | _ => []
  end.
Definition seed (a : arg) : bool :=
  match g_kind a with
  | KIdent => if bool_decide (g_name a = "") then false else match s_assigned s !! g_name a with Some _ => false | None => writer_ident writer s a end
  | _ => false
  end.
Lemma succs_universe a b : a ∈ U → b ∈ succs a → b ∈ U.
Proof.
  intros Ha. unfold succs. destruct (g_kind a); try (by intros ?%elem_of_nil).
  - destruct (bool_decide (g_name a = "")); [by intros ?%elem_of_nil|]. intros H%elem_of_option_list. by eapply universe_assigned.
  - by apply universe_arg.
  - rewrite !elem_of_app, !elem_of_option_list. intros [?|[?|?]]; [by eapply universe_arg|by eapply universe_x|by eapply universe_sel].
  - rewrite !elem_of_app, !elem_of_option_list. intros [?|[?|?]]; [by eapply universe_arg|by eapply universe_x|by eapply universe_sel].
Qed.
(** A search through a graph. *)
Lemma reaches_S n visited a : reaches (S n) visited a =
  match strip pass_write a with
  | None => Some (false, visited)
  | Some b => if bool_decide (g_id b ∈ visited) then Some (false, visited)
              else if seed b then Some (true, {[ g_id b ]} ∪ visited) else first_that (reaches n) ({[ g_id b ]} ∪ visited) (succs b)
  end.
Proof.
  cbn [ProvModel.reaches]. destruct (strip pass_write a) as [b|]; [|done]. destruct (bool_decide (g_id b ∈ visited)); [done|].
  unfold seed, succs. destruct (g_kind b); try done.
  destruct (bool_decide (g_name b = "")); [done|]. destruct (s_assigned s !! g_name b) as [rhs|]; cbn; [|by destruct (writer_ident writer s b)].
  destruct (reaches n _ rhs) as [[[] ?]|]; done.
Qed.

Lemma reaches_enough n : ∀ visited a, a ∈ U → size (ids ∖ visited) < n → ∃ b v, reaches n visited a = Some (b, v) ∧ visited ⊆ v.
Proof.
  induction n as [|n IH]; intros visited a Ha Hn; [lia|]. rewrite reaches_S.
  destruct (strip pass_write a) as [b|] eqn:Hb; [|by eexists _, _].
  destruct (decide (g_id b ∈ visited)) as [Hv|Hv]; [rewrite bool_decide_eq_true_2 by done; by eexists _, _|rewrite bool_decide_eq_false_2 by done].
  assert (b ∈ U) as HbU by (by eapply strip_universe).
  destruct (seed b); [eexists _, _; split; [done|set_solver]|].
  pose proof (ids_visit visited (g_id b) (ids_in b HbU) Hv) as Hlt.
  assert (∀ l w, (∀ x, x ∈ l → x ∈ U) → {[g_id b]} ∪ visited ⊆ w → ∃ r v, first_that (reaches n) w l = Some (r, v) ∧ w ⊆ v) as Hloop.
  { induction l as [|x l IHl]; intros w Hl Hw; cbn; [by eexists _, _|].
    destruct (IH w x) as (r & v & Hr & Hsub); [apply Hl, elem_of_cons; by left| |].
    { pose proof (ids_mono _ _ Hw). lia. }
    rewrite Hr. destruct r; [by eexists _, _|]. destruct (IHl v) as (r' & v' & Hr' & Hs'); [intros; apply Hl, elem_of_cons; by right|set_solver|].
    exists r', v'. split; [done|set_solver]. }
  destruct (Hloop (succs b) ({[g_id b]} ∪ visited)) as (r & v & Hr & Hsub); [intros; by eapply succs_universe|done|]. exists r, v. split; [done|set_solver].
Qed.

(** Found means traced. *)
Lemma succs_traced b e : e ∈ succs b → traced writer s e → traced writer s b.
Proof.
  unfold succs. destruct (g_kind b) eqn:Hk; try (by intros ?%elem_of_nil).
  - destruct (bool_decide (g_name b = "")) eqn:Hn; [by intros ?%elem_of_nil|]. apply bool_decide_eq_false in Hn. intros H%elem_of_option_list. by apply (traced_assigned _ _ _ e).
  - intros H. by apply (traced_argument _ _ _ e).
  - rewrite !elem_of_app, !elem_of_option_list. assert (g_kind b ∈ [KComposite; KKeyValue]) by (rewrite Hk; by apply (bool_decide_unpack _)).
    intros [?|[?|?]]; [by apply traced_element|by apply traced_type_or_key|by apply traced_sel].
  - rewrite !elem_of_app, !elem_of_option_list. assert (g_kind b ∈ [KComposite; KKeyValue]) by (rewrite Hk; by apply (bool_decide_unpack _)).
    intros [?|[?|?]]; [by apply traced_element|by apply traced_type_or_key|by apply traced_sel].
Qed.
Lemma seed_traced b : seed b = true → traced writer s b.
Proof.
  unfold seed. destruct (g_kind b) eqn:Hk; try done. destruct (bool_decide (g_name b = "")) eqn:Hn; [done|]. apply bool_decide_eq_false in Hn.
  destruct (s_assigned s !! g_name b) eqn:Ha; [done|]. intros Hw. apply traced_param; [done..|]. by apply writer_ident_spec.
Qed.
Lemma strip_traced a b : strip pass_write a = Some b → traced writer s b → traced writer s a.
Proof.
  induction a as [a IHx _ _ _] using arg_below. rewrite strip_unfold. destruct (pass_write (g_kind a)) eqn:Hk; [|by intros [= <-]].
  destruct (g_x a) as [y|] eqn:Hy; [|done]. intros H Ht. apply (traced_through _ _ _ y); [by apply pass_write_spec|done|by apply IHx].
Qed.
Lemma traced_cases a : traced writer s a → ∃ b, strip pass_write a = Some b ∧ (seed b = true ∨ ∃ e, e ∈ succs b ∧ traced writer s e).
Proof.
  induction 1 as [a y Hk Hy Ht IH|a Hk Hn Ha Hw|a rhs Hk Hn Ha Ht _|a e Hk He Ht _|a y Hk Hy Ht _|a y Hk Hy Ht _|a e Hk He Ht _].
  - apply pass_write_spec in Hk. rewrite strip_unfold, Hk, Hy. done.
  - exists a. split; [apply strip_self; by rewrite Hk|]. left. unfold seed. rewrite Hk, bool_decide_eq_false_2, Ha by done. by apply writer_ident_spec.
  - exists a. split; [apply strip_self; by rewrite Hk|]. right. exists rhs. split; [|done]. unfold succs. rewrite Hk, bool_decide_eq_false_2, Ha by done. by apply elem_of_list_singleton.
  - exists a. split; [apply strip_self|right; exists e; split; [unfold succs|done]].
    + by apply elem_of_cons in Hk as [-> | ->%elem_of_list_singleton].
    + apply elem_of_cons in Hk as [-> | ->%elem_of_list_singleton]; apply elem_of_app; by left.
  - exists a. split; [apply strip_self|right; exists y; split; [unfold succs|done]].
    + by apply elem_of_cons in Hk as [-> | ->%elem_of_list_singleton].
    + apply elem_of_cons in Hk as [-> | ->%elem_of_list_singleton]; rewrite !elem_of_app, !elem_of_option_list; auto.
  - exists a. split; [apply strip_self|right; exists y; split; [unfold succs|done]].
    + by apply elem_of_cons in Hk as [-> | ->%elem_of_list_singleton].
    + apply elem_of_cons in Hk as [-> | ->%elem_of_list_singleton]; rewrite !elem_of_app, !elem_of_option_list; auto.
  - exists a. split; [apply strip_self; by rewrite Hk|]. right. exists e. split; [|done]. unfold succs. by rewrite Hk.
Qed.
Lemma reaches_sound n : ∀ visited a v, reaches n visited a = Some (true, v) → traced writer s a.
Proof.
  induction n as [|n IH]; intros visited a v; [done|]. rewrite reaches_S. destruct (strip pass_write a) as [b|] eqn:Hb; [|done].
  destruct (bool_decide (g_id b ∈ visited)); [done|]. destruct (seed b) eqn:Hs; [intros _; eapply strip_traced, seed_traced; done|].
  generalize ({[g_id b]} ∪ visited) as w. intros w Hf.
  assert (∃ e, e ∈ succs b ∧ traced writer s e) as (e & He & Ht).
  { revert w Hf. generalize (succs b) as l. induction l as [|x l IHl]; intros w; cbn; [done|]. destruct (reaches n w x) as [[[] v']|] eqn:Hx; [|..|done].
    - intros _. exists x. split; [apply elem_of_cons; by left|by eapply IH].
    - intros (e & He & Ht)%IHl. exists e. split; [apply elem_of_cons; by right|done]. }
  eapply strip_traced; [done|]. by eapply succs_traced.
Qed.
(** Not found means that everything visited leads nowhere. *)
Definition explored (v : gset string) (b : arg) : Prop := seed b = false ∧ ∀ e c, e ∈ succs b → strip pass_write e = Some c → g_id c ∈ v.
Lemma explored_mono v w b : v ⊆ w → explored v b → explored w b.
Proof. intros Hs [H1 H2]. split; [done|]. intros e c He Hc. by apply Hs, (H2 e). Qed.
Lemma reaches_closed (Hd : distinct_ids [KUnary; KStar; KParen] s top) n : ∀ visited a v, a ∈ U → reaches n visited a = Some (false, v) →
  visited ⊆ v ∧ (∀ b, strip pass_write a = Some b → g_id b ∈ v) ∧
  ∀ b, b ∈ U → pass_write (g_kind b) = false → g_id b ∈ v → g_id b ∉ visited → explored v b.
Proof.
  induction n as [|n IH]; intros visited a v Ha; [done|]. rewrite reaches_S. destruct (strip pass_write a) as [b|] eqn:Hb; [|intros [= <-]; done].
  destruct (decide (g_id b ∈ visited)) as [Hv|Hv]; [rewrite bool_decide_eq_true_2 by done|rewrite bool_decide_eq_false_2 by done].
  { intros [= <-]. split; [done|]. split; [by intros ? [= <-]|done]. }
  assert (b ∈ U) as HbU by (by eapply strip_universe). assert (pass_write (g_kind b) = false) as Hkb by (by eapply strip_kind).
  destruct (seed b) eqn:Hs; [done|]. intros Hf.
  assert (∀ l w, (∀ x, x ∈ l → x ∈ U) → first_that (reaches n) w l = Some (false, v) →
    w ⊆ v ∧ (∀ e c, e ∈ l → strip pass_write e = Some c → g_id c ∈ v) ∧ ∀ c, c ∈ U → pass_write (g_kind c) = false → g_id c ∈ v → g_id c ∉ w → explored v c) as Hloop.
  { clear Hf. induction l as [|x l IHl]; intros w Hl; cbn.
    - intros [= <-]. split; [done|]. split; [by intros ? ? ?%elem_of_nil|done].
    - destruct (reaches n w x) as [[[] w']|] eqn:Hx; [done| |done]. intros Hf.
      destruct (IH _ _ _ (Hl x (proj2 (elem_of_cons _ _ _) (or_introl eq_refl))) Hx) as (H1 & H2 & H3).
      destruct (IHl w') as (G1 & G2 & G3); [intros; apply Hl, elem_of_cons; by right|done|].
      split; [set_solver|]. split.
      + intros e c [-> |He]%elem_of_cons Hc; [by apply G1, H2|by apply (G2 e)].
      + intros c HcU Hkc Hcv Hcw. destruct (decide (g_id c ∈ w')) as [Hin|Hout]; [|by apply G3]. apply (explored_mono w'); [done|]. by apply H3. }
  destruct (Hloop (succs b) ({[g_id b]} ∪ visited)) as (G1 & G2 & G3); [intros; by eapply succs_universe|done|].
  split; [set_solver|]. split; [intros ? [= <-]; set_solver|].
  intros c HcU Hkc Hcv Hcn. destruct (decide (g_id c = g_id b)) as [E|E].
  - assert (c = b) as -> by (apply Hd; [done|done|by apply pass_write_false|by apply pass_write_false|done]). by split.
  - apply G3; try done. set_solver.
Qed.
Lemma reaches_complete n v : distinct_ids [KUnary; KStar; KParen] s top → reaches n ∅ top = Some (false, v) → ¬ traced writer s top.
Proof.
  intros Hd Hr Ht. destruct (reaches_closed Hd n _ _ _ universe_top Hr) as (_ & Htop & Hex).
  assert (∀ a, traced writer s a → a ∈ U → (∀ b, strip pass_write a = Some b → g_id b ∈ v) → False) as H; [|by apply (H top Ht universe_top)].
  clear Ht. assert (∀ a b, a ∈ U → strip pass_write a = Some b → g_id b ∈ v → explored v b) as Hexp.
  { intros a b Ha Hb Hv. apply Hex; [by eapply strip_universe|by eapply strip_kind|done|set_solver]. }
  induction 1 as [a y Hk Hy Ht IH|a Hk Hn Ha Hw|a rhs Hk Hn Ha Ht IH|a e Hk He Ht IH|a y Hk Hy Ht IH|a y Hk Hy Ht IH|a e Hk He Ht IH]; intros HU Hin.
  - apply IH; [by eapply universe_x|]. intros b Hb. apply Hin. apply pass_write_spec in Hk. by rewrite strip_unfold, Hk, Hy.
  - assert (strip pass_write a = Some a) as Hs by (apply strip_self; by rewrite Hk). destruct (Hexp a a HU Hs (Hin a Hs)) as [Hseed _].
    unfold seed in Hseed. rewrite Hk, bool_decide_eq_false_2, Ha in Hseed by done. apply writer_ident_spec in Hw. congruence.
  - assert (strip pass_write a = Some a) as Hs by (apply strip_self; by rewrite Hk). destruct (Hexp a a HU Hs (Hin a Hs)) as [_ Hsucc].
    apply IH; [by eapply universe_assigned|]. intros b. apply Hsucc. unfold succs. rewrite Hk, bool_decide_eq_false_2, Ha by done. by apply elem_of_list_singleton.
  - assert (strip pass_write a = Some a) as Hs by (apply strip_self; by apply elem_of_cons in Hk as [-> | ->%elem_of_list_singleton]). destruct (Hexp a a HU Hs (Hin a Hs)) as [_ Hsucc].
    apply IH; [by eapply universe_arg|]. intros b. apply Hsucc. unfold succs. apply elem_of_cons in Hk as [-> | ->%elem_of_list_singleton]; apply elem_of_app; by left.
  - assert (strip pass_write a = Some a) as Hs by (apply strip_self; by apply elem_of_cons in Hk as [-> | ->%elem_of_list_singleton]). destruct (Hexp a a HU Hs (Hin a Hs)) as [_ Hsucc].
    apply IH; [by eapply universe_x|]. intros b. apply Hsucc. unfold succs. apply elem_of_cons in Hk as [-> | ->%elem_of_list_singleton]; rewrite !elem_of_app, !elem_of_option_list; auto.
  - assert (strip pass_write a = Some a) as Hs by (apply strip_self; by apply elem_of_cons in Hk as [-> | ->%elem_of_list_singleton]). destruct (Hexp a a HU Hs (Hin a Hs)) as [_ Hsucc].
    apply IH; [by eapply universe_sel|]. intros b. apply Hsucc. unfold succs. apply elem_of_cons in Hk as [-> | ->%elem_of_list_singleton]; rewrite !elem_of_app, !elem_of_option_list; auto.
  - assert (strip pass_write a = Some a) as Hs by (apply strip_self; by rewrite Hk). destruct (Hexp a a HU Hs (Hin a Hs)) as [_ Hsucc].
    apply IH; [by eapply universe_arg|]. intros b. apply Hsucc. unfold succs. by rewrite Hk.
Qed.
Lemma reaches_ends : ∃ b v, reaches (S (length U)) ∅ top = Some (b, v).
Proof. destruct (reaches_enough (S (length U)) ∅ top universe_top) as (b & v & H & _); [|by exists b, v]. pose proof ids_size. assert (ids ∖ ∅ = ids) as -> by set_solver. lia. Qed.
Lemma reaches_writer_spec : distinct_ids [KUnary; KStar; KParen] s top → (reaches_writer writer s top = true ↔ traced writer s top).
Proof.
  intros Hd. unfold reaches_writer. destruct reaches_ends as (b & v & Hr). rewrite Hr. destruct b.
  - split; [|done]. intros _. by eapply reaches_sound.
  - split; [done|]. intros Ht. by destruct (reaches_complete _ _ Hd Hr).
Qed.
Lemma reaches_writer_sound : reaches_writer writer s top = true → traced writer s top.
Proof. unfold reaches_writer. destruct reaches_ends as (b & v & Hr). rewrite Hr. intros ->. by eapply reaches_sound. Qed.
End write.

(** ** The leaf *)
Lemma leaf_S n visited a : leaf s (S n) visited a =
  match strip pass_write a with
  | None => Some ""
  | Some b => match g_kind b with
              | KIdent => if bool_decide (g_id b ∈ visited) then Some (ident_type s b)
                          else match (if bool_decide (g_name b = "") then None else s_assigned s !! g_name b) with
                               | Some rhs => t ← leaf s n ({[ g_id b ]} ∪ visited) rhs; Some (or_else t (ident_type s b))
                               | None => Some (ident_type s b)
                               end
              | KSelector | KCall | KComposite => Some (own_type b)
              | _ => Some ""
              end
  end.
Proof. done. Qed.
Lemma leaf_enough n : ∀ visited a, a ∈ U → size (ids ∖ visited) < n → is_Some (leaf s n visited a).
Proof.
  induction n as [|n IH]; intros visited a Ha Hn; [lia|]. rewrite leaf_S. destruct (strip pass_write a) as [b|] eqn:Hb; [|by eexists].
  destruct (g_kind b) eqn:Hk; try (by eexists). destruct (decide (g_id b ∈ visited)) as [Hv|Hv]; [rewrite bool_decide_eq_true_2 by done; by eexists|rewrite bool_decide_eq_false_2 by done].
  destruct (if bool_decide (g_name b = "") then None else s_assigned s !! g_name b) as [rhs|] eqn:Hr; [|by eexists].
  destruct (bool_decide (g_name b = "")); [done|].
  destruct (IH ({[g_id b]} ∪ visited) rhs) as [t Ht]; [by eapply universe_assigned| |].
  { pose proof (ids_visit visited (g_id b) (ids_in b (strip_universe _ _ _ Ha Hb)) Hv). lia. }
  rewrite Ht. by eexists.
Qed.
Lemma leads_strip a b c : strip pass_write a = Some b → leads_to s b c → leads_to s a c.
Proof.
  induction a as [a IHx _ _ _] using arg_below. rewrite strip_unfold. destruct (pass_write (g_kind a)) eqn:Hk; [|by intros [= <-]].
  destruct (g_x a) as [y|] eqn:Hy; [|done]. intros H Ht. apply (leads_through _ _ y); [by apply pass_write_spec|done|by apply IHx].
Qed.
Lemma leaf_sound n : ∀ visited a t, leaf s n visited a = Some t → t ≠ "" → ∃ b, leads_to s a b ∧ g_kind b ∈ [KIdent; KSelector; KCall; KComposite] ∧ type_of s b = t.
Proof.
  induction n as [|n IH]; intros visited a t; [done|]. rewrite leaf_S. destruct (strip pass_write a) as [b|] eqn:Hb; [|by intros [= <-]].
  assert (leads_to s a b) as Hab. { eapply leads_strip; [done|]. apply leads_self, pass_write_false. by eapply strip_kind. }
  unfold type_of. destruct (g_kind b) eqn:Hk; try (by intros [= <-]).
  - intros H Ht. assert (t = ident_type s b ∨ ∃ rhs, g_name b ≠ "" ∧ s_assigned s !! g_name b = Some rhs ∧ leaf s n ({[g_id b]} ∪ visited) rhs = Some t) as [-> |(rhs & Hn & Hr & Hl)].
    { destruct (bool_decide (g_id b ∈ visited)); [left; congruence|]. destruct (bool_decide (g_name b = "")) eqn:Hn; [left; congruence|]. apply bool_decide_eq_false in Hn.
      destruct (s_assigned s !! g_name b) as [rhs|] eqn:Hr; [|left; congruence]. destruct (leaf s n _ rhs) as [u|] eqn:Hl; [|done]. cbn in H. injection H as <-.
      unfold or_else in *. destruct (bool_decide (u = "")) eqn:Hu; [by left|]. right. exists rhs. by rewrite Hl. }
    + exists b. split; [done|]. rewrite Hk. split; [by apply (bool_decide_unpack _)|]. rewrite bool_decide_eq_true_2 by done. by rewrite ident_type_var.
    + destruct (IH _ _ _ Hl Ht) as (c & Hc & Hkc & Hty). exists c. split; [|done]. eapply leads_strip; [done|]. by apply (leads_assigned _ _ rhs).
  - intros [= <-] Ht. exists b. split; [done|]. rewrite Hk. split; [by apply (bool_decide_unpack _)|]. rewrite bool_decide_eq_false_2 by done. by rewrite own_type_first.
  - intros [= <-] Ht. exists b. split; [done|]. rewrite Hk. split; [by apply (bool_decide_unpack _)|]. rewrite bool_decide_eq_false_2 by done. by rewrite own_type_first.
  - intros [= <-] Ht. exists b. split; [done|]. rewrite Hk. split; [by apply (bool_decide_unpack _)|]. rewrite bool_decide_eq_false_2 by done. by rewrite own_type_first.
Qed.
Lemma leaf_ends : is_Some (leaf s (S (length U)) ∅ top).
Proof. apply leaf_enough; [apply universe_top|]. pose proof ids_size. assert (ids ∖ ∅ = ids) as -> by set_solver. lia. Qed.
Lemma leads_none a b : strip pass_write a = None → ¬ leads_to s a b.
Proof.
  intros Hs Hl. induction Hl as [a Hk|a y b Hk Hy _ IH|a rhs b Hk _ _ _ _].
  - apply pass_write_false in Hk. rewrite strip_unfold, Hk in Hs. done.
  - apply pass_write_spec in Hk. rewrite strip_unfold, Hk, Hy in Hs. by apply IH.
  - rewrite strip_unfold, Hk in Hs. done.
Qed.
Lemma leaf_known n visited a t : leaf s n visited a = Some t → (∃ b, leads_to s a b) → (∀ b, leads_to s a b → g_kind b ∈ [KIdent; KSelector; KCall; KComposite] ∧ type_of s b ≠ "") → t ≠ "".
Proof.
  destruct n as [|n]; [done|]. rewrite leaf_S. intros H [b0 Hb0] Hall. destruct (strip pass_write a) as [b|] eqn:Hb; [|by destruct (leads_none a b0)].
  assert (leads_to s a b) as Hab. { eapply leads_strip; [done|]. apply leads_self, pass_write_false. by eapply strip_kind. }
  destruct (Hall b Hab) as [Hkind Hty]. unfold type_of in Hty. destruct (g_kind b) eqn:Hk; try (by apply (bool_decide_pack _) in Hkind; vm_compute in Hkind).
  - rewrite bool_decide_eq_true_2, <- ident_type_var in Hty by done. destruct (bool_decide (g_id b ∈ visited)); [congruence|].
    destruct (if bool_decide (g_name b = "") then None else s_assigned s !! g_name b) as [rhs|]; [|congruence].
    destruct (leaf s n _ rhs) as [u|]; [|done]. cbn in H. injection H as <-. unfold or_else. destruct (bool_decide (u = "")) eqn:E; [done|by apply bool_decide_eq_false in E].
  - rewrite bool_decide_eq_false_2, <- own_type_first in Hty by done. congruence.
  - rewrite bool_decide_eq_false_2, <- own_type_first in Hty by done. congruence.
  - rewrite bool_decide_eq_false_2, <- own_type_first in Hty by done. congruence.
Qed.
Lemma leaf_type_sound : leaf_type s top ≠ "" → ∃ b, leads_to s top b ∧ g_kind b ∈ [KIdent; KSelector; KCall; KComposite] ∧ type_of s b = leaf_type s top.
Proof. unfold leaf_type. destruct (leaf s _ ∅ top) as [t|] eqn:H; [|done]. intros Ht. by apply (leaf_sound _ _ _ _ H). Qed.

(** ** Reading *)
Section read.
Context (request accessor : string → bool).
Notation check := (check request accessor s).
Lemma peel_unfold a : peel a =
  match g_kind a with
  | KSelector => match g_x a with
                 | Some x => match peel x with Some (r, l) => Some (r, l ++ [(match g_sel a with Some f => g_name f | None => "" end, false)]) | None => None end
                 | None => None
                 end
  | KCall => match g_fun a with
             | Some f => match g_kind f with
                         | KSelector => match g_x f with
                                        | Some x => match peel x with Some (r, l) => Some (r, l ++ [(match g_sel f with Some m => g_name m | None => "" end, true)]) | None => None end
                                        | None => None
                                        end
                         | _ => None
                         end
             | None => None
             end
  | KIdent => Some (a, [])
  | _ => None
  end.
Proof. by destruct a. Qed.
Lemma chain_peel a r l : chain a r l → peel a = Some (r, l).
Proof.
  induction 1 as [a Hk|a x f r l Hk Hx Hf _ IH|a f x m r l Hk Hf Hkf Hx Hm _ IH]; rewrite peel_unfold, Hk; [done|..].
  - by rewrite Hx, IH, Hf. - by rewrite Hf, Hkf, Hx, IH, Hm.
Qed.
Lemma peel_root a r l : peel a = Some (r, l) → g_kind r = KIdent ∧ (r ∈ subs a).
Proof.
  revert r l. assert (∀ n a, length (subs a) ≤ n → ∀ r l, peel a = Some (r, l) → g_kind r = KIdent ∧ r ∈ subs a) as H; [|intros r l; by apply (H (length (subs a)))].
  clear a. induction n as [|n IH]; intros a Hn r l; [rewrite subs_unfold in Hn; cbn in Hn; lia|]. rewrite peel_unfold. rewrite subs_unfold in Hn. cbn in Hn. rewrite !app_length in Hn. destruct (g_kind a) eqn:Hk; try done.
  - intros [= <- <-]. split; [done|apply subs_self].
  - destruct (g_x a) as [x|] eqn:Hx; [|done]. destruct (peel x) as [[r' l']|] eqn:Hp; [|done]. intros [= <- _].
    destruct (IH x ltac:(lia) _ _ Hp) as [H1 H2]. split; [done|]. apply elem_of_subs. right; left. by exists x.
  - destruct (g_fun a) as [f|] eqn:Hf; [|done]. destruct (g_kind f) eqn:Hkf; try done. destruct (g_x f) as [x|] eqn:Hx; [|done]. destruct (peel x) as [[r' l']|] eqn:Hp; [|done]. intros [= <- _].
    rewrite (subs_unfold f), Hx in Hn. cbn in Hn. rewrite !app_length in Hn. destruct (IH x ltac:(lia) _ _ Hp) as [H1 H2]. split; [done|]. apply elem_of_subs. right; right; right; left.
    exists f. split; [done|]. apply elem_of_subs. right; left. by exists x.
Qed.
Lemma peel_chain (Hnamed : selectors_named s top) a r l : a ∈ U → peel a = Some (r, l) → chain a r l.
Proof.
  revert r l. assert (∀ n a, length (subs a) ≤ n → ∀ r l, a ∈ U → peel a = Some (r, l) → chain a r l) as H; [|intros r l; by apply (H (length (subs a)))].
  clear a. induction n as [|n IH]; intros a Hn r l HU; [rewrite subs_unfold in Hn; cbn in Hn; lia|]. rewrite peel_unfold. rewrite subs_unfold in Hn. cbn in Hn. rewrite !app_length in Hn. destruct (g_kind a) eqn:Hk; try done.
  - intros [= <- <-]. by apply chain_root.
  - destruct (g_x a) as [x|] eqn:Hx; [|done]. destruct (peel x) as [[r' l']|] eqn:Hp; [|done]. intros [= <- <-].
    destruct (Hnamed a HU Hk) as [f Hf]. rewrite Hf. eapply chain_field; [done..|]. apply IH; [lia|by eapply universe_x|done].
  - destruct (g_fun a) as [f|] eqn:Hf; [|done]. destruct (g_kind f) eqn:Hkf; try done. destruct (g_x f) as [x|] eqn:Hx; [|done]. destruct (peel x) as [[r' l']|] eqn:Hp; [|done]. intros [= <- <-].
    rewrite (subs_unfold f), Hx in Hn. cbn in Hn. rewrite !app_length in Hn.
    assert (f ∈ U) as HfU. { apply (universe_sub a); [done|]. apply elem_of_subs. right; right; right; left. exists f. split; [done|apply subs_self]. }
    destruct (Hnamed f HfU Hkf) as [m Hm]. rewrite Hm. eapply chain_method; [done..|]. apply IH; [lia|by eapply universe_x|done].
Qed.
Lemma chain_matches_spec r l : g_kind r = KIdent → (chain_matches request accessor s r l = true ↔ l ≠ [] ∧ root_type s r ≠ "" ∧ request (root_type s r) = true ∧ accessor (accessors l) = true).
Proof.
  intros Hk. unfold chain_matches. rewrite !andb_true_iff, !negb_true_iff, bool_decide_eq_true, !bool_decide_eq_false, ident_type_root, accessor_string_text. split; [by intros ((((_ & ?) & ?) & ?) & ?)|]. by intros (? & ? & ? & ?).
Qed.

(** The next argument of the check. *)
Definition rnext (a : arg) : option arg :=
  match peel a with Some (r, _) => if bool_decide (g_name r = "") then None else s_assigned s !! g_name r | None => None end.
Definition rseed (a : arg) : bool := match peel a with Some (r, l) => chain_matches request accessor s r l | None => false end.
Lemma check_S n visited a : check (S n) visited a =
  match strip pass_read a with
  | None => Some false
  | Some b => if bool_decide (g_id b ∈ visited) then Some false
              else if rseed b then Some true else match rnext b with Some rhs => check n ({[ g_id b ]} ∪ visited) rhs | None => Some false end
  end.
Proof.
  cbn [ProvModel.check]. destruct (strip pass_read a) as [b|]; [|done]. destruct (bool_decide (g_id b ∈ visited)); [done|].
  unfold rseed, rnext. destruct (g_kind b) eqn:Hk; try (rewrite peel_unfold, Hk; done).
  - rewrite peel_unfold, Hk. unfold chain_matches. rewrite (bool_decide_eq_true_2 (@nil seg = [])) by done. cbn [negb]. by rewrite andb_false_r.
  - destruct (peel b) as [[r l]|] eqn:Hp; [|done]. destruct (chain_matches request accessor s r l); [done|]. by rewrite bool_decide_eq_true_2 by (by apply peel_root in Hp as [? _]).
  - destruct (peel b) as [[r l]|] eqn:Hp; [|done]. destruct (chain_matches request accessor s r l); [done|]. by rewrite bool_decide_eq_true_2 by (by apply peel_root in Hp as [? _]).
Qed.
Lemma rnext_universe b rhs : rnext b = Some rhs → rhs ∈ U.
Proof. unfold rnext. destruct (peel b) as [[r l]|]; [|done]. destruct (bool_decide (g_name r = "")); [done|]. apply universe_assigned. Qed.
Lemma check_enough n : ∀ visited a, a ∈ U → size (ids ∖ visited) < n → is_Some (check n visited a).
Proof.
  induction n as [|n IH]; intros visited a Ha Hn; [lia|]. rewrite check_S. destruct (strip pass_read a) as [b|] eqn:Hb; [|by eexists].
  destruct (decide (g_id b ∈ visited)) as [Hv|Hv]; [rewrite bool_decide_eq_true_2 by done; by eexists|rewrite bool_decide_eq_false_2 by done].
  destruct (rseed b); [by eexists|]. destruct (rnext b) as [rhs|] eqn:Hr; [|by eexists]. apply IH; [by eapply rnext_universe|].
  pose proof (ids_visit visited (g_id b) (ids_in b (strip_universe _ _ _ Ha Hb)) Hv). lia.
Qed.
Notation reads := (reads_body request accessor s).
Lemma reads_strip a b : strip pass_read a = Some b → reads b → reads a.
Proof.
  induction a as [a IHx _ _ _] using arg_below. rewrite strip_unfold. destruct (pass_read (g_kind a)) eqn:Hk; [|by intros [= <-]].
  destruct (g_x a) as [y|] eqn:Hy; [|done]. intros H Ht. apply (reads_through _ _ _ _ y); [by apply pass_read_spec|done|by apply IHx].
Qed.
Lemma check_sound (Hnamed : selectors_named s top) n : ∀ visited a, a ∈ U → check n visited a = Some true → reads a.
Proof.
  induction n as [|n IH]; intros visited a Ha; [done|]. rewrite check_S. destruct (strip pass_read a) as [b|] eqn:Hb; [|done].
  assert (b ∈ U) as HbU by (by eapply strip_universe).
  destruct (bool_decide (g_id b ∈ visited)); [done|]. intros H. eapply reads_strip; [done|].
  unfold rseed, rnext in H. destruct (peel b) as [[r l]|] eqn:Hp; [|done]. pose proof (peel_chain Hnamed b r l HbU Hp) as Hc. destruct (peel_root _ _ _ Hp) as [Hk _].
  destruct (chain_matches request accessor s r l) eqn:Hm.
  - apply chain_matches_spec in Hm as (? & ? & ? & ?); [|done]. by eapply reads_accessor.
  - destruct (bool_decide (g_name r = "")) eqn:Hn; [done|]. apply bool_decide_eq_false in Hn. destruct (s_assigned s !! g_name r) as [rhs|] eqn:Hr; [|done].
    eapply reads_assigned; [done..|]. eapply IH; [|done]. by eapply universe_assigned.
Qed.
(** The expressions met by the check, without address-of and dereference. *)
Lemma reads_cases a : reads a → ∃ b, strip pass_read a = Some b ∧ (rseed b = true ∨ ∃ rhs, rnext b = Some rhs ∧ reads rhs).
Proof.
  induction 1 as [a r l Hc Hl H1 H2 H3|a y Hk Hy Ht IH|a r l rhs Hc Hn Hr Ht _].
  - assert (pass_read (g_kind a) = false) as Hp. { by destruct Hc as [? Hk|? ? ? ? ? Hk|? ? ? ? ? ? Hk]; rewrite Hk. }
    exists a. split; [by apply strip_self|]. left. unfold rseed. rewrite (chain_peel _ _ _ Hc). apply chain_matches_spec; [|done]. apply chain_peel in Hc. by apply peel_root in Hc as [? _].
  - apply pass_read_spec in Hk. rewrite strip_unfold, Hk, Hy. done.
  - assert (pass_read (g_kind a) = false) as Hp. { by destruct Hc as [? Hk|? ? ? ? ? Hk|? ? ? ? ? ? Hk]; rewrite Hk. }
    exists a. split; [by apply strip_self|]. right. exists rhs. split; [|done]. unfold rnext. rewrite (chain_peel _ _ _ Hc). by rewrite bool_decide_eq_false_2.
Qed.
Definition rexplored (v : gset string) (b : arg) : Prop := rseed b = false ∧ ∀ e c, rnext b = Some e → strip pass_read e = Some c → g_id c ∈ v.
Lemma pass_read_false k : pass_read k = false ↔ k ∉ [KUnary; KStar].
Proof. rewrite <- pass_read_spec. by destruct (pass_read k). Qed.
Lemma check_closed (Hd : distinct_ids [KUnary; KStar] s top) n : ∀ visited a, a ∈ U → check n visited a = Some false →
  ∃ v, visited ⊆ v ∧ (∀ b, strip pass_read a = Some b → g_id b ∈ v) ∧
  ∀ b, b ∈ U → pass_read (g_kind b) = false → g_id b ∈ v → g_id b ∉ visited → rexplored v b.
Proof.
  induction n as [|n IH]; intros visited a Ha; [done|]. rewrite check_S. destruct (strip pass_read a) as [b|] eqn:Hb; [|intros _; by exists visited].
  destruct (decide (g_id b ∈ visited)) as [Hv|Hv]; [rewrite bool_decide_eq_true_2 by done|rewrite bool_decide_eq_false_2 by done].
  { intros _. exists visited. split; [done|]. split; [by intros ? [= <-]|done]. }
  assert (b ∈ U) as HbU by (by eapply strip_universe). assert (pass_read (g_kind b) = false) as Hkb by (by eapply strip_kind).
  destruct (rseed b) eqn:Hs; [done|]. destruct (rnext b) as [rhs|] eqn:Hr.
  - intros Hf. destruct (IH _ _ (rnext_universe _ _ Hr) Hf) as (v & G1 & G2 & G3). exists v. split; [set_solver|]. split; [intros ? [= <-]; set_solver|].
    intros c HcU Hkc Hcv Hcn. destruct (decide (g_id c = g_id b)) as [E|E].
    + assert (c = b) as -> by (apply Hd; [done|done|by apply pass_read_false|by apply pass_read_false|done]). split; [done|]. rewrite Hr. intros e c [= <-]. apply G2.
    + apply G3; try done. set_solver.
  - intros _. exists ({[g_id b]} ∪ visited). split; [set_solver|]. split; [intros ? [= <-]; set_solver|].
    intros c HcU Hkc Hcv Hcn. assert (c = b) as -> by (apply Hd; [done|done|by apply pass_read_false|by apply pass_read_false|set_solver]). split; [done|]. by rewrite Hr.
Qed.
Lemma check_complete n : distinct_ids [KUnary; KStar] s top → check n ∅ top = Some false → ¬ reads top.
Proof.
  intros Hd Hr Ht. destruct (check_closed Hd n _ _ universe_top Hr) as (v & _ & Htop & Hex).
  assert (∀ a, reads a → a ∈ U → (∀ b, strip pass_read a = Some b → g_id b ∈ v) → False) as H; [|by apply (H top Ht universe_top)].
  clear Ht. assert (∀ a b, a ∈ U → strip pass_read a = Some b → g_id b ∈ v → rexplored v b) as Hexp.
  { intros a b Ha Hb Hv. apply Hex; [by eapply strip_universe|by eapply strip_kind|done|set_solver]. }
  induction 1 as [a r l Hc Hl H1 H2 H3|a y Hk Hy Ht IH|a r l rhs Hc Hn Hrhs Ht IH]; intros HU Hin.
  - destruct (reads_cases a) as (b & Hb & _); [by eapply reads_accessor|].
    assert (b = a) as ->. { rewrite strip_unfold in Hb. destruct Hc as [? Hk|? ? ? ? ? Hk|? ? ? ? ? ? Hk]; rewrite Hk in Hb; by injection Hb. }
    destruct (Hexp a a HU Hb (Hin a Hb)) as [Hseed _]. unfold rseed in Hseed. pose proof (chain_peel _ _ _ Hc) as Hp. rewrite Hp in Hseed.
    enough (chain_matches request accessor s r l = true) by congruence. apply chain_matches_spec; [by apply peel_root in Hp as [? _]|done].
  - apply IH; [by eapply universe_x|]. intros b Hb. apply Hin. apply pass_read_spec in Hk. by rewrite strip_unfold, Hk, Hy.
  - assert (strip pass_read a = Some a) as Hs. { apply strip_self. by destruct Hc as [? Hk|? ? ? ? ? Hk|? ? ? ? ? ? Hk]; rewrite Hk. }
    destruct (Hexp a a HU Hs (Hin a Hs)) as [_ Hsucc]. apply IH; [by eapply universe_assigned|]. intros b. apply Hsucc.
    unfold rnext. rewrite (chain_peel _ _ _ Hc). by rewrite bool_decide_eq_false_2.
Qed.
Lemma check_ends : is_Some (check (S (length U)) ∅ top).
Proof. apply check_enough; [apply universe_top|]. pose proof ids_size. assert (ids ∖ ∅ = ids) as -> by set_solver. lia. Qed.
Lemma request_source_spec : distinct_ids [KUnary; KStar] s top → selectors_named s top → (request_source request accessor s top = true ↔ reads top).
Proof.
  intros Hd Hnamed. unfold request_source. destruct check_ends as [b Hr]. rewrite Hr. destruct b.
  - split; [|done]. intros _. eapply check_sound; [done|apply universe_top|done].
  - split; [done|]. intros Ht. by destruct (check_complete _ Hd Hr).
Qed.
End read.
End site.
