(** * C118: the types in an identifier, and which instances are kept. *)
From Coq Require Import Ascii.
From stdpp Require Import sorting.
From stdpp Require Import base list strings gmap.
From Verif Require Import StrLib StrSplit StrSub StrOrder PathModel PathSpec PathProofs2 ScanModel VerbProofs TypeProofs IdModel IdSpec IdProofs ArgIdModel ArgIdProps GenTypesModel.

(** A type parameter and its type as they can be read back: no comma, equals sign or closing bracket, and no blanks around. *)
Definition readable (s : string) : Prop := contains_byte "," s = false ∧ contains_byte "=" s = false ∧ contains_byte "]" s = false ∧ firm spaces s.
Definition pair_text (p : string * string) : string := p.1 +:+ "=" +:+ p.2.
Definition readable_pair (p : string * string) : Prop := readable p.1 ∧ readable p.2.

Lemma until_close_spec s t : contains_byte "]" s = false → until_close (s +:+ "]" +:+ t) = Some s.
Proof.
  induction s as [|c s IH]; intros H; [done|]. rewrite sapp_cons. cbn [until_close]. unfold contains_byte in H. cbn in H. apply orb_false_iff in H as [Hc Hs].
  apply bool_decide_eq_false in Hc. rewrite decide_False by done. by rewrite IH.
Qed.
Lemma until_close_none s : contains_byte "]" s = false → until_close s = None.
Proof.
  induction s as [|c s IH]; intros H; [done|]. cbn [until_close]. unfold contains_byte in H. cbn in H. apply orb_false_iff in H as [Hc Hs].
  apply bool_decide_eq_false in Hc. rewrite decide_False by done. by rewrite IH.
Qed.
Lemma in_brackets_at base s t : contains_byte "[" base = false → contains_byte "]" s = false → s ≠ "" → in_brackets (base +:+ "[" +:+ s +:+ "]" +:+ t) = Some s.
Proof.
  intros Hb Hs Hn. induction base as [|c base IH].
  - change ("" +:+ "[" +:+ s +:+ "]" +:+ t) with (String "[" (s +:+ "]" +:+ t)). cbn [in_brackets]. rewrite decide_True by done. rewrite until_close_spec by done. by destruct s.
  - rewrite sapp_cons. cbn [in_brackets]. unfold contains_byte in Hb. cbn in Hb. apply orb_false_iff in Hb as [Hc Hb].
    apply bool_decide_eq_false in Hc. rewrite decide_False by done. by apply IH.
Qed.
Lemma contains_join c sep l : contains_byte c sep = false → Forall (λ x, contains_byte c x = false) l → contains_byte c (str_join sep l) = false.
Proof.
  intros Hs F. induction F as [|x l Hx F IH]; [done|]. destruct l as [|y l]; [done|]. rewrite str_join_cons2. unfold contains_byte in *. rewrite !str_any_app, Hx, Hs. done.
Qed.
Lemma pair_firm p : readable_pair p → firm spaces (pair_text p).
Proof.
  intros [(_ & _ & _ & (c & t & E & Hc) & _) (_ & _ & _ & _ & t' & d & E' & Hd)]. unfold pair_text. split.
  - exists c, (t +:+ "=" +:+ p.2). rewrite E. split; [by rewrite sapp_cons|done].
  - exists (p.1 +:+ "=" +:+ t'), d. rewrite E'. split; [by rewrite !sapp_assoc|done].
Qed.
Lemma item_pair p : readable_pair p → item_type (pair_text p) = Some p.2.
Proof.
  intros H. unfold item_type. rewrite firm_trim by (by apply pair_firm). destruct H as [(_ & H1 & _ & _) (_ & H2 & _ & F)].
  assert (contains_byte "=" (pair_text p) = true) as ->. { unfold contains_byte, pair_text. rewrite !str_any_app. cbn. by rewrite orb_true_r. }
  unfold pair_text. change ("=" +:+ p.2) with (String "=" p.2). rewrite split_byte_app, !split_byte_none by done. cbn. by rewrite firm_trim.
Qed.
Lemma pair_free c p : c ≠ "="%char → contains_byte c p.1 = false → contains_byte c p.2 = false → contains_byte c (pair_text p) = false.
Proof.
  intros Hc H1 H2. unfold pair_text, contains_byte in *. rewrite !str_any_app, H1, H2. cbn. rewrite orb_false_r. rewrite orb_false_r. by apply bool_decide_eq_false.
Qed.
(** Texts of pairs between brackets, in any order, give the types in that order. *)
Theorem C118_types base l rest : contains_byte "[" base = false → l ≠ [] → Forall readable_pair l →
  generic_types (base +:+ "[" +:+ str_join "," (pair_text <$> l) +:+ "]" +:+ rest) = l.*2.
Proof.
  intros Hb Hn F. unfold generic_types. rewrite in_brackets_at; [|done|..].
  - rewrite split_join; [|by destruct l|].
    + clear Hn. induction F as [|p l Hp F IH]; [done|]. cbn. rewrite item_pair by done. by rewrite IH.
    + apply Forall_fmap. eapply Forall_impl; [exact F|]. intros p [(H1 & _) (H2 & _)]. by apply pair_free.
  - apply contains_join; [done|]. apply Forall_fmap. eapply Forall_impl; [exact F|]. intros p [(_ & _ & H1 & _) (_ & _ & H2 & _)]. by apply pair_free.
  - destruct l as [|p l]; [done|]. inversion F as [|? ? Hp F']; subst. apply pair_firm in Hp as [(c & t & E & _) _]. cbn -[str_join]. rewrite E. destruct l; [done|]. cbn -[str_join]. by rewrite str_join_cons2.
Qed.
Print Assumptions C118_types.
(** One part between the commas and its type: a type, or a parameter, an equals sign and a type; with blanks around. *)
Inductive reads : string → string → Prop :=
| reads_type a t b : all_of spaces a → all_of spaces b → firm spaces t → contains_byte "=" t = false → reads (a +:+ t +:+ b) t
| reads_bound a p b t c : all_of spaces a → all_of spaces b → all_of spaces c → firm spaces p → firm spaces t → contains_byte "=" p = false → contains_byte "=" t = false →
    reads (a +:+ (p +:+ "=" +:+ b +:+ t) +:+ c) t.
Lemma spaces_eq a : all_of spaces a → contains_byte "=" a = false.
Proof.
  intros H. destruct (contains_byte "=" a) eqn:E; [|done]. exfalso. apply contains_byte_spec in E as (u & v & ->). destruct (H _ u v eq_refl) as (x & y & Es).
  assert (contains_byte "=" spaces = true) as N; [|by vm_compute in N]. apply contains_byte_spec. by exists x, y.
Qed.
Lemma reads_item x t : reads x t → item_type x = Some t.
Proof.
  intros [a t' b Ha Hb Ht He|a p b t' c Ha Hb Hc Hp Ht He1 He2]; unfold item_type, trim_space.
  - rewrite trim_any_firm by done. by rewrite He.
  - assert (firm spaces (p +:+ "=" +:+ b +:+ t')) as Hf.
    { destruct Hp as [(d & u & E & Hd) _], Ht as [_ (w & e & E' & He)]. split.
      - exists d, (u +:+ "=" +:+ b +:+ t'). rewrite E. split; [by rewrite sapp_cons|done].
      - exists (p +:+ "=" +:+ b +:+ w), e. rewrite E'. split; [by rewrite !sapp_assoc|done]. }
    rewrite trim_any_firm by done. assert (contains_byte "=" (p +:+ "=" +:+ b +:+ t') = true) as ->. { unfold contains_byte. rewrite !str_any_app. cbn. by rewrite orb_true_r. }
    change ("=" +:+ b +:+ t') with (String "=" (b +:+ t')). rewrite split_byte_app, split_byte_none by done.
    rewrite split_byte_none by (pose proof (spaces_eq b Hb); unfold contains_byte in *; rewrite str_any_app; by apply orb_false_iff). cbn [app].
    f_equal. pose proof (trim_any_firm spaces b t' "" Hb (all_of_nil _) Ht) as E. by rewrite sapp_nil in E.
Qed.
(** Parts between brackets give their types, whatever the blanks; empty brackets before them are passed over. *)
Theorem C118_items base parts types rest : contains_byte "[" base = false → parts ≠ [] → Forall (λ x, contains_byte "," x = false ∧ contains_byte "]" x = false) parts → Forall2 reads parts types →
  generic_types (base +:+ "[" +:+ str_join "," parts +:+ "]" +:+ rest) = types ∧ generic_types (base +:+ "[]" +:+ base +:+ "[" +:+ str_join "," parts +:+ "]" +:+ rest) = types.
Proof.
  intros Hb Hn F R.
  assert (in_brackets (base +:+ "[" +:+ str_join "," parts +:+ "]" +:+ rest) = Some (str_join "," parts)) as E.
  { apply in_brackets_at; [done|..].
    - apply contains_join; [done|]. eapply Forall_impl; [exact F|]. by intros x [_ ?].
    - destruct R as [|x t parts types Hx R]; [done|]. intros E. assert (x ≠ "") as Nx.
      { destruct Hx as [a t' b Ha Hb' Ht He|a p b t' c Ha Hb' Hc Hp Ht He1 He2]; intros [_ [Ex _]%sapp_eq_nil]%sapp_eq_nil; [by destruct Ht as [(?&?&->&_) _]|]. apply sapp_eq_nil in Ex as [_ Ex]. done. }
      destruct parts as [|y parts]; [done|]. rewrite str_join_cons2 in E. by apply sapp_eq_nil in E as [? _]. }
  assert (omap item_type (split_byte "," (str_join "," parts)) = types) as T.
  { rewrite split_join; [|done|]; [|eapply Forall_impl; [exact F|]; by intros x [? _]]. clear -R. induction R as [|x t parts types Hx R IH]; [done|]. cbn. rewrite (reads_item x t) by done. by rewrite IH. }
  split; unfold generic_types; [by rewrite E|].
  assert (∀ s, in_brackets (base +:+ "[]" +:+ s) = in_brackets s) as ->; [|by rewrite E].
  intros s. clear -Hb. induction base as [|c base IH].
  - by cbn.
  - rewrite sapp_cons. cbn [in_brackets]. unfold contains_byte in Hb. cbn in Hb. apply orb_false_iff in Hb as [Hc Hb]. apply bool_decide_eq_false in Hc. rewrite decide_False by done. by apply IH.
Qed.
Print Assumptions C118_items.
(** Without an opening bracket there is no type, and neither without a closing one. *)
Lemma in_brackets_none s : contains_byte "[" s = false ∨ contains_byte "]" s = false → in_brackets s = None.
Proof.
  induction s as [|c s IH]; [done|]. intros H. cbn [in_brackets]. unfold contains_byte in H. cbn in H. rewrite !orb_false_iff in H.
  destruct (decide (c = "["%char)) as [->|Hc].
  - destruct H as [[H _]|[_ H]]; [done|]. rewrite until_close_none by done. apply IH. by right.
  - apply IH. destruct H as [[_ H]|[_ H]]; auto.
Qed.
Theorem C118_none s : contains_byte "[" s = false ∨ contains_byte "]" s = false → generic_types s = [].
Proof. intros H. unfold generic_types. by rewrite in_brackets_none. Qed.
Print Assumptions C118_none.

Lemma sorted_pairs (l : list (string * string)) : ∃ l', l' ≡ₚ l ∧ ssort (pair_text <$> l) = pair_text <$> l'.
Proof.
  pose proof (ssort_perm (pair_text <$> l)) as P. destruct (Permutation.Permutation_map_inv pair_text l P) as (l' & E & Q). exists l'. split; [by symmetry|exact E].
Qed.
(** The types of the identifier of a call (C37) are those its type parameters are bound to. *)
Theorem C118_call iter c : (∀ l, iter l ≡ₚ l) → ordinary c → Forall readable_pair (ci_generics c) → ci_generics c ≠ [] →
  generic_types (instance_id iter c) ≡ₚ (ci_generics c).*2.
Proof.
  intros Hi Ho F Hn. pose proof (base_undecorated c Ho) as [_ Hu]. destruct (base_nostar c) as [Hs Hb]; [by destruct Ho as (_&_&_&?)|].
  destruct (sorted_pairs (iter (ci_generics c))) as (l & P & E). rewrite (Hi (ci_generics c)) in P.
  assert (instance_id iter c = base_id c +:+ "[" +:+ str_join "," (pair_text <$> l) +:+ "]" +:+ (if decide (ci_pos c = "") then "" else "@" +:+ ci_pos c)) as ->.
  { unfold instance_id, trim_prefix. rewrite star_prefix_app by done. destruct (ci_generics c) as [|g gs] eqn:G; [done|]. unfold generic_parts. rewrite G. rewrite <- E. by rewrite !sapp_assoc. }
  rewrite C118_types; [by rewrite P|done| |by rewrite P]. intros ->. by apply Permutation_nil in P.
Qed.
Print Assumptions C118_call.
(** The same of the identifier of an argument (C117). *)
Theorem C118_argument range a m : ranges range → (arg_id range "." a).2 = params_text range m → contains_byte "[" (arg_id range "." a).1 = false →
  m ≠ ∅ → map_Forall (λ k v, readable k ∧ readable v) m → generic_types (made_id range a) ≡ₚ (map_to_list m).*2.
Proof.
  intros Hr E2 Hb Hm F. unfold made_id. destruct (arg_id range "." a) as [i p]. cbn [fst snd] in *. subst p.
  destruct (sorted_pairs (range m)) as (l & P & E). rewrite (Hr m) in P.
  assert (params_text range m = "[" +:+ str_join "," (pair_text <$> l) +:+ "]") as ->.
  { unfold params_text. rewrite <- E. pose proof (Hr m) as Q. destruct (range m); [|done]. apply Permutation_nil, map_to_list_empty_iff in Q. done. }
  set (rest := if decide _ then _ else _). fold (undressed (i +:+ ("[" +:+ str_join "," (pair_text <$> l) +:+ "]") +:+ rest)).
  rewrite !sapp_assoc. change ("[" +:+ ?s) with (String "[" s). rewrite undressed_bracket.
  change (String "[" (str_join "," (pair_text <$> l) +:+ "]" +:+ rest)) with ("[" +:+ str_join "," (pair_text <$> l) +:+ "]" +:+ rest).
  rewrite C118_types; [by rewrite P| | |].
  - assert (∀ c s, contains_byte "[" s = false → contains_byte "[" (trim_prefix (String c "") s) = false) as Ht.
    { intros c s Hs. unfold trim_prefix. destruct (has_prefix (String c "") s); [|done]. destruct s as [|d s]; [done|]. cbn. unfold contains_byte in Hs. cbn in Hs. by apply orb_false_iff in Hs as [_ Hs]. }
    unfold undressed. by apply Ht, Ht.
  - intros ->. apply Permutation_nil, map_to_list_empty_iff in P. done.
  - rewrite P. apply Forall_forall. intros [k v] H%elem_of_map_to_list. by apply (F k v).
Qed.
Print Assumptions C118_argument.
(** A callee is kept exactly if it has no types, or every type of the node is one of its own. *)
Theorem C118_kept_iff node callee : instance_kept node callee = true ↔ generic_types callee = [] ∨ generic_types node ⊆ generic_types callee.
Proof.
  unfold instance_kept, is_subset. rewrite orb_true_iff, bool_decide_eq_true, forallb_forall. split.
  - intros [?|H]; [by left|]. right. intros x Hx. apply elem_of_list_In, H in Hx. by apply bool_decide_eq_true in Hx.
  - intros [?|H]; [by left|]. right. intros x Hx. apply bool_decide_eq_true. by apply H, elem_of_list_In.
Qed.
Print Assumptions C118_kept_iff.
(** For calls that can be read back: the types bound at the node are among those bound at the callee. *)
Theorem C118_calls_iff iter c d : (∀ l, iter l ≡ₚ l) → ordinary c → ordinary d → Forall readable_pair (ci_generics c) → Forall readable_pair (ci_generics d) →
  ci_generics c ≠ [] → ci_generics d ≠ [] →
  instance_kept (instance_id iter c) (instance_id iter d) = true ↔ ∀ p t, (p, t) ∈ ci_generics c → ∃ q, (q, t) ∈ ci_generics d.
Proof.
  intros Hi Hc Hd Fc Fd Nc Nd. rewrite C118_kept_iff. pose proof (C118_call iter c Hi Hc Fc Nc) as Pc. pose proof (C118_call iter d Hi Hd Fd Nd) as Pd. split.
  - intros [E|H] p t Hp.
    + rewrite E in Pd. apply Permutation_nil in Pd. by destruct (ci_generics d).
    + assert (t ∈ generic_types (instance_id iter d)) as Ht. { apply H. rewrite Pc. apply elem_of_list_fmap. by exists (p, t). }
      rewrite Pd in Ht. apply elem_of_list_fmap in Ht as ([q u] & -> & Hq). by exists q.
  - intros H. right. intros t Ht. rewrite Pc in Ht. apply elem_of_list_fmap in Ht as ([p u] & -> & Hp). destruct (H p u Hp) as [q Hq]. rewrite Pd. apply elem_of_list_fmap. by exists (q, u).
Qed.
Print Assumptions C118_calls_iff.

(** Instances as they are called: [Store] with a key and a value, [Load] with the value alone. *)
Definition inst (name : string) (l : list (string * string)) : call_ident := CallIdent "main" name "" "s.go:3:1" l.
(** The filter is for callees whose types are not bound at the node; but it drops a callee all of whose types are, where the node has one more. *)
Theorem C118_bound_refuted : ∃ c d, ordinary c ∧ ordinary d ∧ Forall readable_pair (ci_generics c) ∧ Forall readable_pair (ci_generics d) ∧
  (∀ q t, (q, t) ∈ ci_generics d → (q, t) ∈ ci_generics c) ∧ instance_kept (instance_id id c) (instance_id id d) = false.
Proof.
  exists (inst "Store" [("K", "string"); ("V", "main.User")]), (inst "Load" [("V", "main.User")]).
  split; [done|]. split; [done|].
  assert (readable_pair ("K", "string")). { split; split_and!; try done; split; [by eexists _, _|by exists "", "K"%char|by eexists _, _|by exists "strin", "g"%char]. }
  assert (readable_pair ("V", "main.User")). { split; split_and!; try done; split; [by eexists _, _|by exists "", "V"%char|by eexists _, _|by exists "main.Use", "r"%char]. }
  split; [by repeat apply List.Forall_cons|]. split; [by repeat apply List.Forall_cons|]. split; [|by vm_compute]. intros q t Hq%elem_of_list_singleton. injection Hq as -> ->. right. by left.
Qed.
Print Assumptions C118_bound_refuted.
(** And it keeps one whose types are not bound at the node. *)
Theorem C118_unbound_refuted : ∃ c d, ci_generics c ≠ [] ∧ (∃ t, t ∈ (ci_generics d).*2 ∧ t ∉ (ci_generics c).*2) ∧ instance_kept (instance_id id c) (instance_id id d) = true.
Proof.
  exists (inst "Load" [("V", "main.User")]), (inst "Store" [("K", "string"); ("V", "main.User")]). split; [done|]. split; [|by vm_compute].
  exists "string". split; [by left|]. intros H. apply elem_of_list_singleton in H. done.
Qed.
Print Assumptions C118_unbound_refuted.
(** The types are not read by parameter: instances with their types exchanged are not told apart. *)
Theorem C118_names_refuted : ∃ c d, ci_generics c = [("K", "string"); ("V", "int")] ∧ ci_generics d = [("K", "int"); ("V", "string")] ∧ instance_kept (instance_id id c) (instance_id id d) = true.
Proof. exists (inst "Store" [("K", "string"); ("V", "int")]), (inst "Store" [("K", "int"); ("V", "string")]). split; [done|]. split; [done|]. by vm_compute. Qed.
Print Assumptions C118_names_refuted.
(** A slice is read as an opening bracket, whatever its elements; a type with arguments is cut at its comma. *)
Theorem C118_slice_refuted : generic_types (instance_id id (inst "Decode" [("T", "[]main.User")])) = ["["] ∧ generic_types (instance_id id (inst "Decode" [("T", "[]main.Order")])) = ["["] ∧
  instance_kept (instance_id id (inst "Decode" [("T", "[]main.User")])) (instance_id id (inst "Read" [("T", "[]main.Order")])) = true.
Proof. split_and!; by vm_compute. Qed.
Print Assumptions C118_slice_refuted.
Theorem C118_comma_refuted : generic_types (instance_id id (inst "Decode" [("T", "main.Pair[int,string]")])) = ["main.Pair[int"; "string"].
Proof. by vm_compute. Qed.
Print Assumptions C118_comma_refuted.

Example store_types : generic_types (instance_id id (inst "Store" [("V", "main.User"); ("K", "string")])) = ["string"; "main.User"].
Proof. by vm_compute. Qed.
Example same_instance : instance_kept "main.Store[T=int]@a.go:1:1" "main.load[U=int]@a.go:2:1" = true ∧ instance_kept "main.Store[T=int]@a.go:1:1" "main.load[U=string]@a.go:2:1" = false ∧
  instance_kept "main.Store[T=int]@a.go:1:1" "fmt.Println@a.go:2:1" = true ∧ generic_types "main.F[int, string]" = ["int"; "string"].
Proof. split_and!; by vm_compute. Qed.
Example argument_types : generic_types (made_id map_to_list (plain "decode" "h.go:9:1" {["T" := "main.User"]})) = ["main.User"].
Proof. by vm_compute. Qed.
Lemma one_blank : all_of spaces " ".
Proof. intros c [|a u] b E; injection E as <- E; [by exists (str_take 5 spaces), ""|]. by destruct u. Qed.
Example blanks_read : reads " int " "int" ∧ reads " K= main.User" "main.User".
Proof.
  split.
  - apply (reads_type " " "int" " "); try done; try apply one_blank. split; [by eexists _, _|by exists "in", "t"%char].
  - apply (reads_bound " " "K" " " "main.User" ""); try done; try apply one_blank; try apply all_of_nil; split; [by eexists _, _|by exists "", "K"%char|by eexists _, _|by exists "main.Use", "r"%char].
Qed.
