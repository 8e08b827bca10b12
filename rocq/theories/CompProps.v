(** * C109 The components a document gets: the used types. *)
From Coq Require Import Ascii ZArith Lia.
From stdpp Require Import sorting.
From stdpp Require Import base numbers list strings gmap relations.
From Verif Require Import StrLib StrSplit PairModel PairProofs MountProofs PathModel VerbProofs ScanModel NameModel GodocModel TvoProps CompModel.

(** ** What routes use *)
(** A type brings itself, and if it is a pointer what it points to. *)
Definition brings (t k : string) : Prop := k = t ∨ ∃ x, t = String "*" x ∧ k = trim_space x.
Definition body_has (b : cbody) (t : string) : Prop := t ∈ cb_oneof b ∨ cb_oneof b = [] ∧ cb_type b = t ∧ t ≠ "".
(** The last part of a reference. *)
Definition last_part (ref t : string) : Prop := contains_byte "/" t = false ∧ (ref = t ∨ ∃ pre, ref = pre +:+ String "/" t).
Inductive used_by (r : croute) (t : string) : Prop :=
| ub_request b : cr_req r = Some b → body_has b t → used_by r t
| ub_response b : b ∈ cr_res r → body_has b t → used_by r t
| ub_param ref : ref ∈ cr_params r → ref ≠ "" → last_part ref t → used_by r t
| ub_listed v : (t, v) ∈ cr_used r → used_by r t.
(** No pointers to pointers. *)
Definition single_pointers (rs : list croute) : Prop := ∀ r t x y, r ∈ rs → used_by r t → t = String "*" x → trim_space x ≠ String "*" y.

(** ** The marks *)
Definition lists (m : string * option csch) (k : string) (s : csch) : Prop := brings m.1 k ∧ m.2 = Some s.
Definition brings_b (t k : string) : bool := bool_decide (k = t) || bool_decide (pointee t = Some k).
Lemma pointee_spec t k : pointee t = Some k ↔ ∃ x, t = String "*" x ∧ k = trim_space x.
Proof.
  split.
  - destruct t as [|c x]; [done|]. destruct c as [[] [] [] [] [] [] [] []]; cbn; try done. intros [= <-]. by eexists.
  - by intros (x & -> & ->).
Qed.
Lemma brings_spec t k : brings_b t k = true ↔ brings t k.
Proof. unfold brings_b, brings. rewrite orb_true_iff, !bool_decide_eq_true, pointee_spec. done. Qed.
Definition val (k : string) (m : string * option csch) : option csch := if brings_b m.1 k then m.2 else None.
Definition plain (l : list (string * option csch)) : Prop := ∀ m d, m ∈ l → pointee m.1 = Some d → pointee d = None.
Definition form (l : list (string * option csch)) (k : string) : option (option csch) := if existsb (λ m, brings_b m.1 k) l then Some (head (omap (val k) l)) else None.
Lemma head_app {A} (l l' : list A) : head (l ++ l') = match head l with Some x => Some x | None => head l' end.
Proof. by destruct l. Qed.
Lemma form_app l m k : form (l ++ [m]) k = if brings_b m.1 k then Some (match head (omap (val k) l) with Some s => Some s | None => m.2 end) else form l k.
Proof.
  unfold form. rewrite existsb_app, omap_app, head_app. cbn. rewrite orb_false_r. unfold val at 2. destruct (brings_b m.1 k).
  - rewrite orb_true_r. by destruct (head (omap (val k) l)), (m.2).
  - rewrite orb_false_r. by destruct (existsb _ l), (head (omap (val k) l)).
Qed.
Lemma pointee_length t d : pointee t = Some d → d ≠ t.
Proof.
  intros (x & -> & ->)%pointee_spec E. assert (L : String.length (trim_space x) ≤ String.length x); [|rewrite E in L; cbn in L; lia].
  destruct (trim_any_dec spaces x) as (a & b & E2 & _). apply (f_equal String.length) in E2. rewrite !sapp_length in E2. unfold trim_space. lia.
Qed.
Lemma form_none l k : form l k = None → head (omap (val k) l) = None.
Proof.
  unfold form. destruct (existsb _ l) eqn:E; [done|]. intros _. apply head_omap_none, Forall_forall. intros m Hm. unfold val. destruct (brings_b m.1 k) eqn:B; [|done].
  assert (X : existsb (λ m, brings_b m.1 k) l = true); [|by rewrite X in E]. apply existsb_exists. exists m. split; [by apply elem_of_list_In|done].
Qed.
Lemma form_some l k o : form l k = Some o → head (omap (val k) l) = o.
Proof. unfold form. by destruct (existsb _ l) eqn:E; [intros [= <-]|]. Qed.
Lemma marks_form l : plain l → ∀ k, foldl mark ∅ l !! k = form l k.
Proof.
  induction l as [|[t v] l IH] using rev_ind; intros P k; [cbn [foldl]; apply lookup_empty|]. assert (P' : plain l) by (intros m d Hm; apply P; apply elem_of_app; by left). specialize (IH P').
  rewrite foldl_app. cbn [foldl]. rewrite form_app. cbn [fst snd]. set (u := foldl mark ∅ l) in *. unfold mark.
  assert (Pt : ∀ d, pointee t = Some d → pointee d = None) by (intros d; apply (P (t, v) d); apply elem_of_app; right; by left).
  assert (Nil : ∀ k', match u !! k' with Some (Some _) => False | _ => True end → head (omap (val k') l) = None).
  { intros k' H. rewrite IH in H. destruct (form l k') as [[s|]|] eqn:F; [done|by apply form_some in F|by apply form_none]. }
  assert (Set' : ∀ k', match u !! k' with Some (Some s) => head (omap (val k') l) = Some s | _ => head (omap (val k') l) = None end).
  { intros k'. rewrite IH. destruct (form l k') as [[s|]|] eqn:F; [by apply form_some in F|by apply form_some in F|by apply form_none]. }
  assert (Br : ∀ k', brings_b t k' = true ↔ k' = t ∨ pointee t = Some k') by (intros k'; unfold brings_b; by rewrite orb_true_iff, !bool_decide_eq_true).
  destruct (u !! t) as [[s|]|] eqn:Ut.
  { destruct (brings_b t k) eqn:B; [|apply IH]. assert (St := Set' t). rewrite Ut in St. rewrite IH. apply Br in B as [->|B].
    - rewrite St. rewrite <- IH. by rewrite Ut.
    - assert (X : ∃ s', u !! k = Some (Some s')).
      { apply head_omap in St as (pre & m' & post & -> & Hv & _). unfold val in Hv. destruct (brings_b m'.1 t) eqn:B'; [|done]. unfold brings_b in B'. apply orb_true_iff in B' as [B'|B']; apply bool_decide_eq_true in B'.
        - rewrite IH. destruct (form (pre ++ m' :: post) k) as [[s'|]|] eqn:F; [by eexists| |].
          + apply form_some in F. apply head_omap_none in F. rewrite Forall_forall in F. specialize (F m'). unfold val, brings_b in F. rewrite <- B' in F. rewrite (bool_decide_eq_true_2 (pointee t = Some k) B), orb_true_r in F. rewrite F in Hv; [done|]. apply elem_of_app. right. by left.
          + apply form_none in F. apply head_omap_none in F. rewrite Forall_forall in F. specialize (F m'). unfold val, brings_b in F. rewrite <- B' in F. rewrite (bool_decide_eq_true_2 (pointee t = Some k) B), orb_true_r in F. rewrite F in Hv; [done|]. apply elem_of_app. right. by left.
        - exfalso. assert (N : pointee t = None) by (apply (P' m' t); [apply elem_of_app; right; by left|done]). by rewrite N in B. }
      destruct X as [s' X]. assert (Sk := Set' k). rewrite X in Sk. rewrite Sk. rewrite <- IH. by rewrite X. }
  all: assert (Nt : head (omap (val t) l) = None) by (assert (St := Set' t); by rewrite Ut in St).
  all: destruct (pointee t) as [d|] eqn:Pd.
  all: try (assert (Nd : d ≠ t) by (by apply pointee_length); rewrite lookup_insert_ne by done; assert (Sd := Set' d);
    destruct (u !! d) as [[s|]|] eqn:Ud; destruct (brings_b t k) eqn:B;
    [apply Br in B as [->|[= <-]]; [rewrite lookup_insert, Nt; done|rewrite lookup_insert_ne by done; by rewrite Ud, Sd]
    |assert (Nb : ¬ (k = t ∨ Some d = Some k)) by (rewrite <- Br; by rewrite B); rewrite lookup_insert_ne by (intros ->; apply Nb; by left); apply IH
    |apply Br in B as [->|[= <-]]; [rewrite lookup_insert_ne by done; rewrite lookup_insert, Nt; done|rewrite lookup_insert; by rewrite Sd]
    |assert (Nb : ¬ (k = t ∨ Some d = Some k)) by (rewrite <- Br; by rewrite B); rewrite lookup_insert_ne by (intros ->; apply Nb; by right); rewrite lookup_insert_ne by (intros ->; apply Nb; by left); apply IH
    |apply Br in B as [->|[= <-]]; [rewrite lookup_insert_ne by done; rewrite lookup_insert, Nt; done|rewrite lookup_insert; by rewrite Sd]
    |assert (Nb : ¬ (k = t ∨ Some d = Some k)) by (rewrite <- Br; by rewrite B); rewrite lookup_insert_ne by (intros ->; apply Nb; by right); rewrite lookup_insert_ne by (intros ->; apply Nb; by left); apply IH]).
  all: destruct (brings_b t k) eqn:B; [apply Br in B as [->|B]; [rewrite lookup_insert, Nt; done|done]|].
  all: assert (Nb : ¬ (k = t ∨ None = Some k)) by (rewrite <- Br; by rewrite B); rewrite lookup_insert_ne by (intros ->; apply Nb; by left); apply IH.
Qed.
(** ** The used types *)
Lemma last_part_spec ref t : last (split_byte "/" ref) = Some t ↔ last_part ref t.
Proof.
  assert (K : ∀ a b, contains_byte "/" b = false → last (split_byte "/" (a +:+ String "/" b)) = Some b) by (intros a b Hb; by rewrite split_byte_app, (split_byte_none "/" b Hb), last_app).
  split.
  - destruct (split_last "/" ref) as [[a b]|] eqn:E.
    + apply split_last_some in E as [-> Hb]. rewrite K by done. intros [= <-]. split; [done|]. right. by exists a.
    + assert (N : contains_byte "/" ref = false).
      { destruct (contains_byte "/" ref) eqn:C; [|done]. clear K. induction ref as [|x s IH]; [done|]. cbn [split_last] in E. destruct (split_last "/" s) as [[??]|]; [done|]. destruct (decide (x = "/"%char)) as [|Nx]; [done|].
        rewrite contains_cons, bool_decide_eq_false_2 in C by done. by apply IH. }
      rewrite split_byte_none by done. intros [= <-]. split; [done|by left].
  - intros [N [->|[pre ->]]]; [by rewrite split_byte_none|by apply K].
Qed.
Lemma body_types_spec b t : t ∈ body_types b ↔ body_has b t.
Proof.
  unfold body_types, body_has. destruct (cb_oneof b) as [|x l]; cbn.
  - destruct (decide (cb_type b = "")) as [E|E].
    + rewrite elem_of_nil. split; [done|]. by intros [?|(_ & <- & ?)].
    + rewrite elem_of_list_singleton, elem_of_nil. split; [intros ->; by right|]. by intros [?|(_ & <- & _)].
  - split; [by left|]. by intros [?|[? _]].
Qed.
Definition unlisted (r : croute) : list string := match cr_req r with Some b => body_types b | None => [] end ++ (cr_res r ≫= body_types) ++ (cr_params r ≫= param_type).
Lemma route_marks_eq r : route_marks r = ((λ t, (t, None)) <$> unlisted r) ++ cr_used r.
Proof. done. Qed.
Lemma unlisted_used r t : t ∈ unlisted r → used_by r t.
Proof.
  unfold unlisted. rewrite !elem_of_app, !elem_of_list_bind. intros [H|[(b & H & Hb)|(ref & H & Hr)]].
  - destruct (cr_req r) as [b|] eqn:E; [|by apply elem_of_nil in H]. apply body_types_spec in H. by eapply ub_request.
  - apply body_types_spec in H. by eapply ub_response.
  - unfold param_type in H. destruct (decide (ref = "")); [by apply elem_of_nil in H|]. destruct (last (split_byte "/" ref)) as [t'|] eqn:E; [|by apply elem_of_nil in H]. apply elem_of_list_singleton in H as ->. apply last_part_spec in E. by eapply ub_param.
Qed.
Lemma used_by_marks r t : used_by r t ↔ ∃ v, (t, v) ∈ route_marks r.
Proof.
  rewrite route_marks_eq. split.
  - intros [b E H|b E H|ref E N H|v H].
    + exists None. apply elem_of_app. left. apply elem_of_list_fmap. exists t. split; [done|]. unfold unlisted. rewrite E. apply elem_of_app. left. by apply body_types_spec.
    + exists None. apply elem_of_app. left. apply elem_of_list_fmap. exists t. split; [done|]. unfold unlisted. rewrite !elem_of_app, !elem_of_list_bind. right. left. exists b. split; [by apply body_types_spec|done].
    + exists None. apply elem_of_app. left. apply elem_of_list_fmap. exists t. split; [done|]. unfold unlisted. rewrite !elem_of_app, !elem_of_list_bind. right. right. exists ref. split; [|done]. unfold param_type. rewrite decide_False by done. apply last_part_spec in H. rewrite H. by left.
    + exists v. apply elem_of_app. by right.
  - intros [v H]. apply elem_of_app in H as [H|H]; [|by eapply ub_listed]. apply elem_of_list_fmap in H as (t' & [= -> _] & H). by apply unlisted_used.
Qed.
Lemma single_plain rs : single_pointers rs → plain (rs ≫= route_marks).
Proof.
  intros S m d Hm Hp. apply elem_of_list_bind in Hm as (r & Hm & Hr). destruct (pointee d) as [d'|] eqn:E; [|done]. apply pointee_spec in Hp as (x & Ex & Ed). apply pointee_spec in E as (y & Ey & _).
  destruct (S r m.1 x y Hr); [apply used_by_marks; exists (m.2); by destruct m|done|by rewrite <- Ed].
Qed.
(** The used types are those the routes use, and what pointers among them point to. *)
Theorem C109_used rs k : single_pointers rs → is_Some (collect rs !! k) ↔ ∃ r t, r ∈ rs ∧ used_by r t ∧ brings t k.
Proof.
  intros S. unfold collect. rewrite (marks_form _ (single_plain rs S)). unfold form. split.
  - intros [o H]. destruct (existsb _ _) eqn:E; [|done]. apply existsb_exists in E as ([t v] & H1 & H2). apply elem_of_list_In, elem_of_list_bind in H1 as (r & H1 & Hr). apply brings_spec in H2. exists r, t. split_and!; [done| |done]. apply used_by_marks. by exists v.
  - intros (r & t & Hr & [v Hu]%used_by_marks & Hb). rewrite (proj2 (existsb_exists _ _)); [by eexists|]. exists (t, v). split; [|by apply brings_spec]. apply elem_of_list_In, elem_of_list_bind. by exists r.
Qed.
Print Assumptions C109_used.
(** The schema recorded for a type is the first listed for it or for a pointer to it. *)
Definition none_lists (l : list (string * option csch)) (k : string) : Prop := ∀ t s, (t, Some s) ∈ l → ¬ brings t k.
Theorem C109_recorded rs k s :
  single_pointers rs →
  collect rs !! k = Some (Some s) ↔
  ∃ pre r post upto t more, rs = pre ++ r :: post ∧ cr_used r = upto ++ (t, Some s) :: more ∧ brings t k ∧ none_lists upto k ∧ ∀ r', r' ∈ pre → none_lists (cr_used r') k.
Proof.
  intros S. unfold collect. rewrite (marks_form _ (single_plain rs S)).
  assert (V : ∀ m, val k m = None ↔ ∀ s', m.2 = Some s' → ¬ brings m.1 k).
  { intros [t [v|]]; unfold val; cbn; destruct (brings_b t k) eqn:B; split; try done.
    - intros H. destruct (H v eq_refl). by apply brings_spec.
    - intros _ s' [= <-] H%brings_spec. by rewrite H in B. }
  assert (U : ∀ r, Forall (λ m, val k m = None) ((λ t, (t, None)) <$> unlisted r)) by (intros r; apply Forall_fmap, Forall_forall; intros t _; by apply V).
  assert (NL : ∀ l, Forall (λ m, val k m = None) l ↔ none_lists l k).
  { intros l. rewrite Forall_forall. split.
    - intros H t s' Hm. apply H in Hm. apply V with (s' := s') in Hm; done.
    - intros H [t v] Hm. apply V. cbn. intros s' ->. by apply (H t s'). }
  assert (F : form (rs ≫= route_marks) k = Some (Some s) ↔ head (omap (val k) (rs ≫= route_marks)) = Some s).
  { split; [by apply form_some|]. intros H. unfold form. rewrite H. apply head_omap in H as (pre & m & post & E & Hv & _). rewrite (proj2 (existsb_exists _ _)); [done|]. exists m. split; [apply elem_of_list_In; rewrite E; apply elem_of_app; right; by left|]. unfold val in Hv. by destruct (brings_b m.1 k). }
  rewrite F. clear F S. induction rs as [|r rs IH].
  { split; [done|]. intros ([|] & ? & ? & ? & ? & ? & E & _); done. }
  change ((r :: rs) ≫= route_marks) with (route_marks r ++ (rs ≫= route_marks)). rewrite omap_app, head_app. rewrite (route_marks_eq r), omap_app, head_app.
  assert (H0 : head (omap (val k) ((λ t, (t, None)) <$> unlisted r)) = None) by (apply head_omap_none, U). rewrite H0. destruct (head (omap (val k) (cr_used r))) as [s1|] eqn:E1.
  - split.
    + intros [= ->]. apply head_omap in E1 as (upto & [t v] & more & E & Hv & Fu). unfold val in Hv. cbn in Hv. destruct (brings_b t k) eqn:B; [|done]. subst v. apply brings_spec in B. exists [], r, rs, upto, t, more. split_and!; [done|done|done|by apply NL|]. by intros r' ?%elem_of_nil.
    + intros (pre & r1 & post & upto & t & more & E & Eu & B & Nu & Np). destruct pre as [|r0 pre].
      * injection E as -> ->. f_equal. assert (X : head (omap (val k) (cr_used r1)) = Some s); [|by rewrite X in E1; injection E1]. apply head_omap. exists upto, (t, Some s), more. split_and!; [done| |by apply NL]. unfold val. cbn. apply brings_spec in B. by rewrite B.
      * injection E as -> ->. exfalso. assert (X := Np r0 (elem_of_list_here _ _)). apply NL, head_omap_none in X. by rewrite X in E1.
  - rewrite IH. split.
    + intros (pre & r1 & post & upto & t & more & -> & Eu & B & Nu & Np). exists (r :: pre), r1, post, upto, t, more. split_and!; [done|done|done|done|]. intros r' [->|H]%elem_of_cons; [|by apply Np]. apply NL, head_omap_none, E1.
    + intros (pre & r1 & post & upto & t & more & E & Eu & B & Nu & Np). destruct pre as [|r0 pre].
      * injection E as -> ->. exfalso. apply head_omap_none in E1. rewrite Eu in E1. apply Forall_app in E1 as [_ E1]. apply Forall_cons in E1 as [E1 _]. unfold val in E1. cbn in E1. apply brings_spec in B. by rewrite B in E1.
      * injection E as -> ->. exists pre, r1, post, upto, t, more. split_and!; [done|done|done|done|]. intros r' H. apply Np. by right.
Qed.
Print Assumptions C109_recorded.
(** The order of responses and of a route's listed types, which Go leaves open, does not matter if a type and a pointer to it are listed with one schema. *)
Definition reordered (r r' : croute) : Prop := cr_req r = cr_req r' ∧ cr_res r ≡ₚ cr_res r' ∧ cr_params r = cr_params r' ∧ cr_used r ≡ₚ cr_used r'.
Definition agreeing (r : croute) : Prop := ∀ t s t' s' k, (t, Some s) ∈ cr_used r → (t', Some s') ∈ cr_used r → brings t k → brings t' k → s = s'.
Lemma head_perm {A B} (g : A → option B) l l' : l ≡ₚ l' → (∀ x y a b, x ∈ l → y ∈ l → g x = Some a → g y = Some b → a = b) → head (omap g l) = head (omap g l').
Proof.
  intros P H. destruct (head (omap g l)) as [a|] eqn:E.
  - destruct (head (omap g l')) as [a'|] eqn:E'.
    + f_equal. apply head_omap in E as (? & x & ? & El & Hx & _). apply head_omap in E' as (? & y & ? & El' & Hy & _). apply (H x y); [rewrite El; apply elem_of_app; right; by left|rewrite P, El'; apply elem_of_app; right; by left|done|done].
    + exfalso. apply head_omap_none in E'. rewrite <- P in E'. apply head_omap in E as (? & x & ? & -> & Hx & _). apply Forall_app in E' as [_ E']. apply Forall_cons in E' as [E' _]. by rewrite E' in Hx.
  - symmetry. apply head_omap_none. apply head_omap_none in E. by rewrite <- P.
Qed.
Lemma reordered_marks r r' k : reordered r r' → agreeing r → head (omap (val k) (route_marks r)) = head (omap (val k) (route_marks r')) ∧ existsb (λ m, brings_b m.1 k) (route_marks r) = existsb (λ m, brings_b m.1 k) (route_marks r').
Proof.
  intros (E1 & P1 & E2 & P2) A.
  assert (U : ∀ r, head (omap (val k) (route_marks r)) = head (omap (val k) (cr_used r))).
  { intros r0. rewrite route_marks_eq, omap_app, head_app. assert (H0 : head (omap (val k) ((λ t, (t, None)) <$> unlisted r0)) = None); [|by rewrite H0]. apply head_omap_none, Forall_fmap, Forall_forall. intros t _. unfold val. cbn. by destruct (brings_b t k). }
  split.
  - rewrite !U. apply head_perm; [done|]. intros [t v] [t' v'] a b H1 H2 V1 V2. unfold val in *. cbn in *. destruct (brings_b t k) eqn:B1; [|done]. destruct (brings_b t' k) eqn:B2; [|done]. subst. by apply (A t a t' b k H1 H2); apply brings_spec.
  - assert (P : route_marks r ≡ₚ route_marks r'); [rewrite !route_marks_eq; unfold unlisted; by rewrite E1, E2, P1, P2|]. apply eq_bool_prop_intro. rewrite !Is_true_true, !existsb_exists. split; intros (m & Hm & Hb); exists m; (split; [|done]); apply elem_of_list_In; apply elem_of_list_In in Hm; [by rewrite <- P|by rewrite P].
Qed.
Theorem C109_order rs rs' : single_pointers rs → single_pointers rs' → Forall2 reordered rs rs' → Forall agreeing rs → collect rs = collect rs'.
Proof.
  intros S S' R A. apply map_eq. intros k. unfold collect. rewrite (marks_form _ (single_plain rs S)), (marks_form _ (single_plain rs' S')). unfold form. clear S S'.
  assert (H : head (omap (val k) (rs ≫= route_marks)) = head (omap (val k) (rs' ≫= route_marks)) ∧ existsb (λ m, brings_b m.1 k) (rs ≫= route_marks) = existsb (λ m, brings_b m.1 k) (rs' ≫= route_marks)); [|by destruct H as [-> ->]].
  induction R as [|r r' rs rs' H R IH]; [done|]. apply Forall_cons in A as [A1 A2]. destruct (IH A2) as [I1 I2]. destruct (reordered_marks r r' k H A1) as [J1 J2].
  change ((r :: rs) ≫= route_marks) with (route_marks r ++ (rs ≫= route_marks)). change ((r' :: rs') ≫= route_marks) with (route_marks r' ++ (rs' ≫= route_marks)). rewrite !omap_app, !head_app, !existsb_app. by rewrite I1, I2, J1, J2.
Qed.
Print Assumptions C109_order.
(** Otherwise the order decides which schema the type gets. *)
Theorem C109_order_refuted : ∃ r r', reordered r r' ∧ single_pointers [r] ∧ collect [r] !! "app.User" ≠ collect [r'] !! "app.User".
Proof.
  exists (CRoute None [] [] [("*app.User", Some (CBody 1)); ("app.User", Some (CBody 2))]), (CRoute None [] [] [("app.User", Some (CBody 2)); ("*app.User", Some (CBody 1))]).
  split_and!; [by split_and!; [| | |apply Permutation_swap]| |intros E; vm_compute in E; discriminate].
  intros r t x y ->%elem_of_list_singleton [b H|b H|ref H|v H]; [done|by apply elem_of_nil in H|by apply elem_of_nil in H|]. cbn in H. apply elem_of_cons in H as [[= -> _]|[[= -> _]|H%elem_of_nil]%elem_of_cons]; [|done|done].
  intros [= <-] E. vm_compute in E. done.
Qed.
Print Assumptions C109_order_refuted.
(** A pointer to a pointer can keep a type from being used though a pointer to it is. *)
Theorem C109_double_pointer_refuted : ∃ rs, (∃ r, r ∈ rs ∧ used_by r "*app.User") ∧ brings "*app.User" "app.User" ∧ collect rs !! "app.User" = None.
Proof.
  exists [CRoute None [] [] [("**app.User", Some (CBody 1)); ("*app.User", Some (CBody 1))]]. split_and!; [|right; by eexists|by vm_compute].
  eexists. split; [by left|]. eapply ub_listed. right. by left.
Qed.
Print Assumptions C109_double_pointer_refuted.
