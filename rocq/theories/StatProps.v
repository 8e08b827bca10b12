(** * Properties of status mappers (C73). *)
From stdpp Require Import sorting.
From stdpp Require Import base list strings gmap relations.
From Coq Require Import ZArith.
From Verif Require Import StrOrder ReachProofs StatModel StatSpec StatProofs.

(** [field_of] of the specification is what the code reads off a literal;
    [C73_keyed_literal] and [C73_positional_literal] say what that is. *)
Definition reads (types : string → string → option (list string)) (pkgs : list string) (field : string) (f : sfunc) (l : sarg) : option sarg :=
  struct_field_value types pkgs l field f.

(** No two functions the search can find share package and name. *)
Definition told_apart (find : string → string → option sfunc) (m : sfunc) : Prop :=
  ∀ f g, (f = m ∨ ∃ p n, find p n = Some f) → (g = m ∨ ∃ p n, find p n = Some g) → fn_id f = fn_id g → f = g.

Theorem C73_keyed_literal types pkgs field f l v : (∃ e, Some e ∈ s_args l ∧ s_kind e = SKeyValue) →
  reads types pkgs field f l = Some v ↔
  ∃ i e k, s_args l !! i = Some (Some e) ∧ s_kind e = SKeyValue ∧ s_x e = Some k ∧ s_name k = field ∧ s_fn e = Some v ∧
    ∀ j e' k', j < i → s_args l !! j = Some (Some e') → s_kind e' = SKeyValue → s_x e' = Some k' → s_name k' ≠ field.
Proof.
  intros (e0 & He0 & Hk0). unfold reads, struct_field_value.
  assert (existsb is_key_value (s_args l) = true) as ->.
  { apply existsb_elem. exists (Some e0). split; [done|]. cbn. by rewrite bool_decide_eq_true_2. }
  clear e0 He0 Hk0. unfold keyed_field_value.
  assert (∀ e : option sarg, has_key field e = true ↔ ∃ e' k, e = Some e' ∧ s_kind e' = SKeyValue ∧ s_x e' = Some k ∧ s_name k = field) as Hkey.
  { intros [e|]; cbn [has_key]; [|split; [done|by intros (? & ? & ? & _)]].
    rewrite andb_true_iff, bool_decide_eq_true. destruct (s_x e) as [k|] eqn:Ek.
    - rewrite bool_decide_eq_true. split.
      + intros [? ?]. exists e, k. done.
      + intros (e' & k' & [= <-] & ? & Hk' & ?). rewrite Ek in Hk'. by injection Hk' as ->.
    - split; [by intros [_ ?]|]. intros (e' & k' & [= <-] & ? & Hk' & ?). congruence. }
  induction (s_args l) as [|a rest IH].
  - cbn. split; [done|]. by intros (i & e & k & Hi & _).
  - destruct (decide (has_key field a = true)) as [Ha|Ha].
    + rewrite filter_cons_True by done. cbn [head].
      pose proof Ha as Ha'. apply Hkey in Ha' as (e & k & -> & Hk & Hx & Hn). split.
      * intros Hf. exists 0, e, k. split; [done|]. split; [done|]. split; [done|]. split; [done|]. split; [done|]. lia.
      * intros (i & e' & k' & Hi & Hk' & Hx' & Hn' & Hf & Hmin). destruct i as [|i].
        -- cbn in Hi. by injection Hi as ->.
        -- exfalso. by eapply (Hmin 0 e k); [lia|..].
    + rewrite filter_cons_False by done. rewrite IH. split.
      * intros (i & e & k & Hi & Hk & Hx & Hn & Hf & Hmin). exists (S i), e, k. split; [done|]. split; [done|]. split; [done|].
        split; [done|]. split; [done|]. intros [|j] e' k' Hj He' Hk' Hx' Hn'.
        -- cbn in He'. injection He' as ->. apply Ha, Hkey. exists e', k'. done.
        -- eapply (Hmin j); [lia|done..].
      * intros (i & e & k & Hi & Hk & Hx & Hn & Hf & Hmin). destruct i as [|i].
        -- exfalso. cbn in Hi. injection Hi as ->. apply Ha, Hkey. exists e, k. done.
        -- exists i, e, k. split; [done|]. split; [done|]. split; [done|]. split; [done|]. split; [done|].
           intros j e' k' Hj He' Hk' Hx'. apply (Hmin (S j) e' k'); [lia|done..].
Qed.

(** The type a positional literal is read by: the one of that name in the package
    of the literal, else the first package in order that has one. *)
Definition declared (types : string → string → option (list string)) (p name : string) (fs : list string) : Prop :=
  p ≠ "" ∧ name ≠ "" ∧ types p name = Some fs.
Definition read_by (types : string → string → option (list string)) (pkgs : list string) (pkg name : string) (fs : list string) : Prop :=
  declared types pkg name fs ∨
  ((∀ fs', ¬ declared types pkg name fs') ∧
   ∃ p, p ∈ pkgs ∧ declared types p name fs ∧ ∀ p' fs', p' ∈ pkgs → declared types p' name fs' → string_le p p').

Lemma find_type_spec types p name fs : find_type types p name = Some fs ↔ declared types p name fs.
Proof.
  unfold find_type, declared. destruct (decide (p = "")) as [->|Hp]; [cbn; split; [done|tauto]|].
  rewrite (bool_decide_eq_false_2 (p = "")) by done. destruct (decide (name = "")) as [->|Hn]; [cbn; split; [done|tauto]|].
  rewrite (bool_decide_eq_false_2 (name = "")) by done. cbn. tauto.
Qed.
Lemma find_anywhere_spec types pkgs name fs : find_type_anywhere types pkgs name = Some fs ↔
  ∃ p, p ∈ pkgs ∧ declared types p name fs ∧ ∀ p' fs', p' ∈ pkgs → declared types p' name fs' → string_le p p'.
Proof.
  unfold find_type_anywhere. destruct (decide (name = "")) as [->|Hn].
  { cbn. split; [done|]. intros (p & _ & (_ & ? & _) & _). done. }
  rewrite (bool_decide_eq_false_2 (name = "")) by done.
  assert (Sorted string_le (merge_sort string_le pkgs)) as Hs by apply Sorted_merge_sort, _.
  assert (∀ p, p ∈ merge_sort string_le pkgs ↔ p ∈ pkgs) as Hin.
  { intros p. by rewrite (merge_sort_Permutation string_le pkgs). }
  apply Sorted_StronglySorted in Hs; [|apply _].
  setoid_rewrite <- Hin. clear Hin. induction Hs as [|p l Hs IH Hall].
  { cbn. split; [done|]. by intros (p & ?%elem_of_nil & _). }
  cbn [omap list_omap]. destruct (find_type types p name) as [fs'|] eqn:Ef.
  - cbn [head]. apply find_type_spec in Ef. split.
    + intros [= <-]. exists p. split; [left|]. split; [done|]. intros p' fs'' Hp' _.
      apply elem_of_cons in Hp' as [->|Hp']; [done|]. rewrite Forall_forall in Hall. by apply Hall.
    + intros (p' & Hp' & Hd & Hmin). apply elem_of_cons in Hp' as [->|Hp'].
      * destruct Ef as (_ & _ & E1), Hd as (_ & _ & E2). congruence.
      * assert (p = p') as ->.
        { apply (anti_symm string_le); [rewrite Forall_forall in Hall; by apply Hall|]. eapply Hmin; [left|done]. }
        destruct Ef as (_ & _ & E1), Hd as (_ & _ & E2). congruence.
  - rewrite IH. assert (∀ fs', ¬ declared types p name fs') as Hno.
    { intros fs' Hd. apply find_type_spec in Hd. congruence. }
    split.
    + intros (p' & Hp' & Hd & Hmin). exists p'. split; [by right|]. split; [done|]. intros q fs' Hq Hdq.
      apply elem_of_cons in Hq as [->|Hq]; [by apply Hno in Hdq|by eapply Hmin].
    + intros (p' & Hp' & Hd & Hmin). apply elem_of_cons in Hp' as [->|Hp']; [by apply Hno in Hd|].
      exists p'. split; [done|]. split; [done|]. intros q fs' Hq. eapply Hmin. by right.
Qed.

Theorem C73_positional_literal types pkgs field f l v : (∀ e, Some e ∈ s_args l → s_kind e ≠ SKeyValue) →
  reads types pkgs field f l = Some v ↔
  ∃ pkg name fs i, literal_type f l pkg name ∧ read_by types pkgs pkg name fs ∧
    fs !! i = Some field ∧ (∀ j, j < i → fs !! j ≠ Some field) ∧ s_args l !! i = Some (Some v).
Proof.
  intros Hpos. unfold reads, struct_field_value.
  assert (existsb is_key_value (s_args l) = false) as ->.
  { apply not_true_is_false. intros H. apply existsb_elem in H as (e & He & Hk). destruct e as [e|]; [|done]. cbn in Hk.
    apply bool_decide_eq_true in Hk. by eapply Hpos. }
  destruct (s_x l) as [x|] eqn:Ex; cbn [mbind option_bind].
  2: { split; [done|]. intros (? & ? & ? & ? & (x & Hx & _) & _). congruence. }
  set (pn := match s_x x, s_sel x with
             | Some q, Some s => if bool_decide (s_kind x = SSelector) then (s_name q, s_name s) else (sf_pkg f, s_name x)
             | _, _ => (sf_pkg f, s_name x) end).
  assert (∀ pkg name, literal_type f l pkg name ↔ pn = (pkg, name)) as Hlt.
  { intros pkg name. unfold literal_type, pn. rewrite Ex. split.
    - intros (x' & [= <-] & [(Hk & q & s & Hq & Hs & -> & ->)|(Hk & -> & ->)]).
      + rewrite Hq, Hs. by rewrite bool_decide_eq_true_2.
      + destruct (s_x x) as [q|] eqn:Eq; [|done]. destruct (s_sel x) as [s|] eqn:Es; [|done].
        destruct Hk as [Hk|[Hk|Hk]]; [|done|done]. by rewrite bool_decide_eq_false_2.
    - intros E. exists x. split; [done|]. destruct (s_x x) as [q|] eqn:Eq.
      2: { injection E as <- <-. right. tauto. }
      destruct (s_sel x) as [s|] eqn:Es.
      2: { injection E as <- <-. right. tauto. }
      destruct (decide (s_kind x = SSelector)) as [Hk|Hk].
      + rewrite bool_decide_eq_true_2 in E by done. injection E as <- <-. left. split; [done|]. exists q, s. done.
      + rewrite bool_decide_eq_false_2 in E by done. injection E as <- <-. right. tauto. }
  clearbody pn. destruct pn as [pkg name].
  assert (∀ fs, match find_type types pkg name with Some t => Some t | None => find_type_anywhere types pkgs name end = Some fs
            ↔ read_by types pkgs pkg name fs) as Hrb.
  { intros fs. unfold read_by. rewrite <- find_anywhere_spec. destruct (find_type types pkg name) as [t|] eqn:Et.
    - pose proof Et as Hd. apply find_type_spec in Hd. split.
      + intros [= <-]. by left.
      + intros [(_ & _ & E)|[Hno _]]; [|by apply Hno in Hd]. destruct Hd as (_ & _ & E'). congruence.
    - split.
      + intros E. right. split; [|done]. intros fs' Hd. apply find_type_spec in Hd. congruence.
      + intros [Hd|[_ ?]]; [|done]. apply find_type_spec in Hd. congruence. }
  set (t := match find_type types pkg name with Some t => Some t | None => find_type_anywhere types pkgs name end) in *.
  split.
  - intros E. destruct t as [fs|] eqn:Et; [|done]. cbn [mbind option_bind] in E. unfold field_index in E.
    destruct (list_find (λ f, f = field) fs) as [[i f']|] eqn:El; [|done]. cbn in E.
    apply list_find_Some in El as (Hi & -> & Hmin). exists pkg, name, fs, i. split; [by apply Hlt|]. split; [by apply Hrb|].
    split; [done|]. split; [intros j Hj Hf; by eapply (Hmin j)|]. destruct (s_args l !! i) as [o|]; [|done]. cbn in E. by subst.
  - intros (pkg' & name' & fs & i & Hl & Hr & Hi & Hmin & Ha). apply Hlt in Hl. injection Hl as <- <-.
    apply Hrb in Hr. rewrite Hr. cbn [mbind option_bind]. unfold field_index.
    assert (list_find (λ f, f = field) fs = Some (i, field)) as ->.
    { apply list_find_Some. split; [done|]. split; [done|]. intros j y Hj Hy ->. by apply (Hmin j). }
    cbn. rewrite Ha. done.
Qed.

Section stat.
Context (map_status : sarg → option Z) (find : string → string → option sfunc).
Context (types : string → string → option (list string)) (pkgs : list string) (field : string).
Notation answers := (can_answer map_status find (reads types pkgs field)).
Notation open := (can_be_open map_status find (reads types pkgs field)).
Notation run := (statuses_of_mapper map_status find types pkgs field).

(** When the mapper's variables are not assigned in circles, the search ends. *)
Theorem C73_ends_partial m : no_circles m → (∀ p n h, find p n = Some h → no_circles h) → ∃ fuel, is_Some (run fuel (Some m)).
Proof.
  intros Hm Hh. destruct (runs_end map_status find types pkgs field (λ f, f = m ∨ ∃ p n, find p n = Some f)) with (k := 9) (d := 0) (h := Some m)
    (st := (∅ : gset Z, ∅ : gset string)) as (n & [b st] & E).
  - intros p n h Hf. right. eauto.
  - intros h [->|(p & n & Hf)]; eauto.
  - lia.
  - intros f [= <-]. by left.
  - exists n. unfold statuses_of_mapper. rewrite E. by eexists.
Qed.

Theorem C73_codes_sorted fuel m cs r : run fuel m = Some (cs, r) → StronglySorted Z.lt cs.
Proof.
  intros E. unfold statuses_of_mapper in E. destruct m as [m|]; [|injection E as <- _; constructor].
  destruct (return_field_statuses _ _ _ _ _ _ _ _ _) as [[b st]|]; [|done]. cbn in E. injection E as <- <-.
  assert (Sorted Z.le (merge_sort Z.le (elements st.1))) as Hs by (apply Sorted_merge_sort; intros ? ?; lia).
  apply Sorted_StronglySorted in Hs; [|intros ???; lia].
  assert (NoDup (merge_sort Z.le (elements st.1))) as Hnd by (rewrite merge_sort_Permutation; apply NoDup_elements).
  induction Hs as [|a l Hs IH Hall]; constructor.
  - apply IH. by inversion Hnd.
  - rewrite Forall_forall in *. intros x Hx. specialize (Hall x Hx). assert (x ≠ a); [|lia].
    intros ->. by inversion Hnd.
Qed.

(** Every status listed is one some branch sets. *)
Theorem C73_listed_is_answered fuel m cs r s : told_apart find m → run fuel (Some m) = Some (cs, r) → s ∈ cs → answers m s.
Proof.
  intros Ht E Hs. unfold statuses_of_mapper in E. destruct (return_field_statuses _ _ _ _ _ _ _ _ _) as [[b st]|] eqn:Er; [|done].
  cbn in E. injection E as <- <-. rewrite merge_sort_Permutation, elem_of_elements in Hs.
  eapply (mapper_ok map_status find types pkgs field (λ f, f = m ∨ ∃ p n, find p n = Some f)); [| |by left|exact Er|done].
  - intros p n h Hf. right. eauto.
  - intros f g. apply Ht.
Qed.

(** Without residue the list is complete, and no branch sets the field to something
    that is no status. *)
Theorem C73_complete_without_residue fuel m cs : told_apart find m → run fuel (Some m) = Some (cs, false) →
  (∀ s, s ∈ cs ↔ answers m s) ∧ ¬ open m.
Proof.
  intros Ht E. split.
  - intros s. split; [by eapply C73_listed_is_answered|].
    unfold statuses_of_mapper in E. destruct (return_field_statuses _ _ _ _ _ _ _ _ _) as [[b st]|] eqn:Er; [|done].
    cbn in E. injection E as <- ->. intros Hs. rewrite merge_sort_Permutation, elem_of_elements.
    eapply (mapper_ok map_status find types pkgs field (λ f, f = m ∨ ∃ p n, find p n = Some f)) in Er as (_ & H & _);
      [|intros p n h Hf; right; eauto|intros f g; apply Ht|by left].
    by apply (proj1 (H eq_refl)).
  - unfold statuses_of_mapper in E. destruct (return_field_statuses _ _ _ _ _ _ _ _ _) as [[b st]|] eqn:Er; [|done].
    cbn in E. injection E as <- ->.
    eapply (mapper_ok map_status find types pkgs field (λ f, f = m ∨ ∃ p n, find p n = Some f)) in Er as (_ & H & _);
      [|intros p n h Hf; right; eauto|intros f g; apply Ht|by left].
    apply (proj2 (H eq_refl)).
Qed.

(** Residue is reported only for a branch that sets the field to something that is
    no status, or for a chain of more than eight steps. *)
Theorem C73_residue_is_for_something fuel m cs : told_apart find m → run fuel (Some m) = Some (cs, true) →
  open m ∨ deeper_than find 8 m.
Proof.
  intros Ht E. unfold statuses_of_mapper in E. destruct (return_field_statuses _ _ _ _ _ _ _ _ _) as [[b st]|] eqn:Er; [|done].
  cbn in E. injection E as <- ->.
  eapply (mapper_ok map_status find types pkgs field (λ f, f = m ∨ ∃ p n, find p n = Some f)) in Er as (_ & _ & H);
    [|intros p n h Hf; right; eauto|intros f g; apply Ht|by left].
  by apply H.
Qed.

(** A branch open, then, is always reported. *)
Corollary C73_open_is_reported fuel m cs r : told_apart find m → run fuel (Some m) = Some (cs, r) → open m → r = true.
Proof. intros Ht E Ho. destruct r; [done|]. by apply (C73_complete_without_residue fuel m cs Ht) in E as [_ E]. Qed.

(** The answer does not depend on how far the search is allowed to run. *)
Theorem C73_answer_unique fuel fuel' m a a' : run fuel m = Some a → run fuel' m = Some a' → a = a'.
Proof.
  assert (∀ n n' a, n ≤ n' → run n m = Some a → run n' m = Some a) as Hmono.
  { intros n n' x Hle E. unfold statuses_of_mapper in *. destruct m as [m|]; [|done].
    destruct (return_field_statuses map_status find types pkgs field n (Some m) 0 (∅, ∅)) as [[b st]|] eqn:Er; [|done].
    apply (proj1 (fuel_mono map_status find types pkgs field n n' Hle)) in Er. rewrite Er. done. }
  intros E E'. apply (Hmono _ (fuel + fuel')) in E; [|lia]. apply (Hmono _ (fuel + fuel')) in E'; [|lia]. congruence.
Qed.
End stat.

(** ** Findings *)
Definition ident (n : string) : sarg := SArg SIdent n None None None [].
Definition lit (ty : string) (args : list (option sarg)) : sarg := SArg SComposite "" (Some (ident ty)) None None args.
Definition kv (k : string) (v : sarg) : option sarg := Some (SArg SKeyValue "" (Some (ident k)) None (Some v) []).
Definition numbers (a : sarg) : option Z :=
  if bool_decide (s_name a = "404") then Some 404%Z else if bool_decide (s_name a = "500") then Some 500%Z else None.
Definition call_of (n : string) : sarg := SArg SCall "" None None (Some (ident n)) [].
Definition api_types (p n : string) : option (list string) :=
  if bool_decide (p = "app" ∧ n = "APIError") then Some ["Status"; "Message"] else None.

(** A mapper with [api := api] in an inner block, returning [api]: the search never
    ends, since the depth is only looked at on entering a function. *)
Definition shadowing : sfunc :=
  SFunc "app" "MapError" [[ident "api"]] {[ "api" := [SAssign (lit "APIError" [kv "Status" (ident "404")]) "" ""; SAssign (ident "api") "" ""] ]}.
Lemma residues_none {A} (body : A → gset Z * gset string → option (bool * (gset Z * gset string))) a l :
  a ∈ l → (∀ st, body a st = None) → ∀ st, residues body l st = None.
Proof.
  intros Ha Hb. induction l as [|b l IH]; intros st; [by apply elem_of_nil in Ha|]. cbn [residues].
  apply elem_of_cons in Ha as [<-|Ha]; [by rewrite Hb|].
  destruct (body b st) as [[b1 st1]|]; [|done]. cbn [mbind option_bind]. by rewrite (IH Ha).
Qed.
Lemma shadowing_loops fuel : ∀ d st,
  field_status_of_value numbers (λ _ _, None) api_types ["app"] "Status" fuel (ident "api") shadowing d st = None.
Proof.
  induction fuel as [|fuel IH]; intros d st; [done|]. rewrite val_eq.
  change (composite_lit_of (ident "api")) with (@None sarg). cbn [s_kind ident].
  change (assigned shadowing (SArg SIdent "api" None None None [])) with
    [SAssign (lit "APIError" [kv "Status" (ident "404")]) "" ""; SAssign (ident "api") "" ""].
  apply (residues_none _ (SAssign (ident "api") "" "")); [right; left|]. intros st1. apply IH.
Qed.
Theorem C73_ends_refuted : ∃ map_status find types pkgs field m, ∀ fuel,
  statuses_of_mapper map_status find types pkgs field fuel (Some m) = None.
Proof.
  exists numbers, (λ _ _, None), api_types, ["app"], "Status", shadowing. intros [|fuel]; [reflexivity|].
  unfold statuses_of_mapper. rewrite ret_eq.
  rewrite bool_decide_eq_false_2 by (unfold max_mapper_depth; lia). rewrite bool_decide_eq_false_2 by (cbn; set_solver).
  change (concat (sf_returns shadowing)) with [ident "api"]. cbn [residues]. by rewrite shadowing_loops.
Qed.

(** A mapper one of whose branches returns something the search cannot follow (a
    variable of the package, a function outside the program): the branch adds no
    status and no residue, so the list is passed off as complete. *)
Definition silent : sfunc :=
  SFunc "app" "MapError" [[lit "APIError" [kv "Status" (ident "404")]]; [ident "errInternal"]; [call_of "external"]] ∅.
Theorem C73_lost_branch_is_reported_refuted : ∃ map_status find types pkgs field fuel m cs v,
  statuses_of_mapper map_status find types pkgs field fuel (Some m) = Some (cs, false) ∧
  returned m v ∧ (∀ l, ¬ literal v l) ∧ (s_kind v = SIdent ∨ s_kind v = SCall) ∧ ∀ n p, ¬ stat_step find n (AtVal m v) p.
Proof.
  exists numbers, (λ _ _, None), api_types, ["app"], "Status", 5, silent, [404%Z], (ident "errInternal").
  split; [by vm_compute|]. split; [exists [ident "errInternal"]; split; [unfold silent; cbn [sf_returns]; apply elem_of_cons; right; by left|by left]|].
  split; [intros l [Hl [E|[E _]]]; [subst l; discriminate Hl|discriminate E]|]. split; [by left|].
  intros n p Hs. inversion Hs; subst; cbn in *; try done.
Qed.

(** ** A case: a mapper with a literal, a helper, and a branch whose status is not
    a constant. *)
Definition helper : sfunc := SFunc "app" "mapAs404" [[lit "APIError" [Some (ident "404"); Some (ident "m")]; ident "true"]] ∅.
Definition mapper : sfunc :=
  SFunc "app" "MapError" [[ident "api"]; [lit "APIError" [kv "Message" (ident "m"); kv "Status" (ident "500")]]]
    {[ "api" := [SAssign (call_of "mapAs404") "mapAs404" "app"] ]}.
Definition mapper_open : sfunc := SFunc "app" "MapAny" [[call_of "mapAs404"]; [lit "APIError" [kv "Status" (ident "code")]]] ∅.
Definition find_one (p n : string) : option sfunc := if bool_decide (p = "app" ∧ n = "mapAs404") then Some helper else None.
Example C73_example :
  told_apart find_one mapper ∧ told_apart find_one mapper_open ∧ no_circles mapper ∧ no_circles helper ∧
  statuses_of_mapper numbers find_one api_types ["app"] "Status" 9 (Some mapper) = Some ([404%Z; 500%Z], false) ∧
  statuses_of_mapper numbers find_one api_types ["app"] "Status" 9 (Some mapper_open) = Some ([404%Z], true) ∧
  reads api_types ["app"] "Status" mapper (lit "APIError" [kv "Message" (ident "m"); kv "Status" (ident "500")]) = Some (ident "500") ∧
  reads api_types ["app"] "Status" helper (lit "APIError" [Some (ident "404"); Some (ident "m")]) = Some (ident "404").
Proof.
  assert (∀ m, fn_id m ≠ fn_id helper → told_apart find_one m) as Ht.
  { intros m Hm. assert (∀ p n f, find_one p n = Some f → f = helper) as Hf.
    { intros p n f. unfold find_one. destruct (bool_decide _); [|done]. by intros [= <-]. }
    intros f g [->|(p & n & ->%Hf)] [->|(p' & n' & ->%Hf)] E; try done. }
  split; [by apply Ht; vm_compute|]. split; [by apply Ht; vm_compute|].
  split.
  { exists (λ _, 0). intros x as_ a Hx Ha Hk. unfold mapper in Hx. cbn [sf_assigns] in Hx. apply lookup_singleton_Some in Hx as [_ <-].
    apply elem_of_list_singleton in Ha as ->. done. }
  split.
  { exists (λ _, 0). intros x as_ a Hx. unfold helper in Hx. cbn [sf_assigns] in Hx. by rewrite lookup_empty in Hx. }
  split; [by vm_compute|]. split; [by vm_compute|]. split; by vm_compute.
Qed.
Print Assumptions C73_keyed_literal.
Print Assumptions C73_positional_literal.
Print Assumptions C73_ends_partial.
Print Assumptions C73_codes_sorted.
Print Assumptions C73_listed_is_answered.
Print Assumptions C73_complete_without_residue.
Print Assumptions C73_residue_is_for_something.
Print Assumptions C73_open_is_reported.
Print Assumptions C73_answer_unique.
Print Assumptions C73_ends_refuted.
Print Assumptions C73_lost_branch_is_reported_refuted.
