(** * The properties about functions stored in fields. *)
From Coq Require Import Ascii.
From stdpp Require Import sorting.
From stdpp Require Import base list strings gmap.
From Verif Require Import StrLib StrOrder StrSplit DecLib ScanModel PairModel PairProofs MountProofs SecProps WrapSpec WrapProofs2 FfModel FfSpec FfProofs.

(** ** C81: the index of functions stored in fields *)
Section dispatch.
Context (known : string → bool) (fields_of : string → string → list (string * string)) (entrypoint : string → string → bool).

(** What the walk over an expression records is exactly what literals at most twelve
    levels down hold: a function named by the value of a field that is declared an
    entrypoint or has a function type. *)
Theorem C81_walk_exact (ctx : string) (a : farg) (t : litt) (s : stored) :
  s ∈ walk known fields_of entrypoint lit_levels ctx (Some a) t ↔
  ∃ d pkg ty f v key, d ≤ 12 ∧ holds fields_of ctx t a d pkg ty f v ∧ followed fields_of entrypoint pkg ty f ∧ value_names known ctx v key ∧
    s = Stored (pkg +:+ "." +:+ ty +:+ "." +:+ f) key (entrypoint (pkg +:+ "." +:+ ty) f).
Proof.
  rewrite walk_spec. unfold lit_levels, event. split.
  - intros (d & pkg & ty & f & v & Hd & Hh & Hf & key & Hk & ->). exists d, pkg, ty, f, v, key. split; [lia|]. done.
  - intros (d & pkg & ty & f & v & key & Hd & Hh & Hf & Hk & ->). exists d, pkg, ty, f, v. split; [lia|]. split; [done|]. split; [done|]. by exists key.
Qed.
Lemma value_known ctx v key : value_names known ctx v key → known key = true.
Proof. by intros [v' k' ? (_ & H & _)|v' k' ? (_ & H & _)|v' s r k' ? ? ? ? ? ? H|v' s k' ? ? (_ & H & _) ?]. Qed.
Lemma rendered_known imports pkg value key : key_from_rendered known imports pkg value = Some key → known key = true.
Proof.
  unfold key_from_rendered. destruct (key_from_name known pkg value) as [k|] eqn:E.
  - intros [= <-]. by apply key_from_name_spec in E as (_ & H & _).
  - destruct (cut_dot value) as [[q rest]|]; [|done]. destruct (bool_decide (q = "")); [done|]. intros H. apply head_Some_elem_of in H.
    rewrite merge_sort_Permutation in H. apply elem_of_list_omap in H as (imp & _ & H). destruct (_ || _) in H; [|done]. cbv zeta in H.
    destruct (known (imp.2 +:+ "." +:+ rest)) eqn:Ek; [|done]. by injection H as <-.
Qed.
(** Whatever the index of a program holds is a function that can be expanded. *)
Theorem C81_only_known (has_entrypoints : bool) (p : fprog) (field key : string) :
  key ∈ functions_of (build_dispatch known fields_of entrypoint has_entrypoints p) field → known key = true.
Proof.
  intros H.
  assert (∀ s, s ∈ build_dispatch known fields_of entrypoint has_entrypoints p → known (st_fn s) = true) as Hall.
  { intros s Hs. unfold build_dispatch in Hs. rewrite !elem_of_app, !elem_of_concat in Hs.
    destruct Hs as [(l & Hl & Hs)|[(l & Hl & Hs)|(l & Hl & Hs)]]; apply elem_of_list_fmap in Hl as (x & -> & _).
    - destruct x as [[[pkg imports] ty] fields]. unfold instance_stored in Hs. destruct (split_qualified ty) as [tp tn]. destruct (_ && _); [by apply elem_of_nil in Hs|].
      apply elem_of_list_omap in Hs as ([f val] & _ & Hs). destruct (bool_decide _); [done|]. destruct (_ || _); [|done].
      destruct (key_from_rendered known imports pkg (f, val).2) as [k|] eqn:E; [|done]. injection Hs as <-. by apply rendered_known in E.
    - apply C81_walk_exact in Hs as (d & pkg & ty & f & v & k & _ & _ & _ & Hk & ->). by apply value_known in Hk.
    - destruct x as [pkg [a|]]; [|by apply elem_of_nil in Hs]. apply C81_walk_exact in Hs as (d & pkg' & ty & f & v & k & _ & _ & _ & Hk & ->). by apply value_known in Hk. }
  unfold functions_of in H.
  assert (∀ l x, x ∈ dedupe l → x ∈ l) as Hd.
  { induction l as [|y l IH]; intros x; cbn [dedupe]; [done|]. destruct (dedupe l) as [|z l'] eqn:E; [by intros ->%elem_of_list_singleton; left|].
    destruct (bool_decide (y = z)); [intros Hx; right; by apply IH|]. intros [->|Hx]%elem_of_cons; [left|right; by apply IH]. }
  apply Hd in H. rewrite merge_sort_Permutation in H. apply elem_of_list_omap in H as (s & Hs & H). destruct (bool_decide _); [|done].
  injection H as <-. by apply Hall.
Qed.
(** A rendered instance contributes, for each field that can be followed, the function its
    value names; the fields are those of the type's package, the writing package when the
    rendered type has none. *)
Theorem C81_instance_exact (has_entrypoints : bool) (imports : list (string * string)) (pkg ty tp tn : string) (fields : list (string * string)) (s : stored) :
  (has_entrypoints = false → ∀ o f, entrypoint o f = false) → split_qualified ty = (tp, tn) →
  let owner := if decide (tp = "") then pkg else tp in
  s ∈ instance_stored known fields_of entrypoint has_entrypoints imports pkg ty fields ↔
  ∃ f value key, (f, value) ∈ fields ∧ f ≠ "" ∧ followed fields_of entrypoint owner tn f ∧ key_from_rendered known imports pkg value = Some key ∧
    s = Stored (owner +:+ "." +:+ tn +:+ "." +:+ f) key (entrypoint (owner +:+ "." +:+ tn) f).
Proof.
  intros Hno Hsp owner. unfold instance_stored. rewrite Hsp.
  assert ((if bool_decide (tp = "") then pkg else tp) = owner) as -> by (subst owner; by repeat case_decide || case_bool_decide).
  assert ((fields_of owner tn = [] ∧ has_entrypoints = false) ∨ ¬ (fields_of owner tn = [] ∧ has_entrypoints = false)) as [[H1 H2]|Hn].
  { destruct (decide (fields_of owner tn = [])), has_entrypoints; naive_solver. }
  - rewrite H1, H2. rewrite bool_decide_eq_true_2 by done. cbn. rewrite elem_of_nil. split; [done|].
    intros (f & value & key & _ & _ & Hf & _). destruct Hf as [Hf|(t & Hf & _)]; [by rewrite Hno in Hf|]. unfold field_is in Hf. rewrite H1 in Hf. destruct Hf as (l1 & l2 & E & _). by destruct l1.
  - assert (bool_decide (fields_of owner tn = []) && negb has_entrypoints = false) as ->.
    { destruct (decide (fields_of owner tn = [])) as [E|E]; [|by rewrite bool_decide_eq_false_2]. destruct has_entrypoints; [by rewrite andb_false_r|]. by destruct Hn. }
    rewrite elem_of_list_omap. split.
    + intros ([f value] & Hin & H). cbn [fst snd] in H. destruct (decide (f = "")) as [Hf|Hf]; [by rewrite bool_decide_eq_true_2 in H|]. rewrite bool_decide_eq_false_2 in H by done.
      cbv zeta in H. destruct (_ || _) eqn:E in H; [|done]. apply followed_spec in E. destruct (key_from_rendered known imports pkg value) as [key|] eqn:Ek; [|done]. injection H as <-.
      by exists f, value, key.
    + intros (f & value & key & Hin & Hf & Hfo & Hk & ->). exists (f, value). split; [done|]. cbn [fst snd]. rewrite bool_decide_eq_false_2 by done. cbv zeta.
      apply followed_spec in Hfo. rewrite Hfo. by rewrite Hk.
Qed.
End dispatch.
Print Assumptions C81_instance_exact.
Print Assumptions C81_walk_exact.
Print Assumptions C81_only_known.

Lemma dedupe_spec l : StronglySorted string_le l → (∀ x, x ∈ dedupe l ↔ x ∈ l) ∧ StronglySorted string_le (dedupe l) ∧ NoDup (dedupe l).
Proof.
  induction l as [|y l IH]; cbn [dedupe]; intros Hs; [split; [done|]; split; constructor|]. inversion Hs as [|? ? Hs' Hy]; subst.
  destruct (IH Hs') as (H1 & H2 & H3). destruct (dedupe l) as [|z l'] eqn:E.
  - split; [|split; [repeat constructor|apply NoDup_singleton]]. intros x. rewrite elem_of_list_singleton, elem_of_cons. rewrite <- H1, elem_of_nil. naive_solver.
  - destruct (decide (y = z)) as [->|Hne].
    + rewrite bool_decide_eq_true_2 by done. split; [|done]. intros x. rewrite (elem_of_cons l), <- H1. split; [by right|]. intros [->|?]; [left|done].
    + rewrite bool_decide_eq_false_2 by done. split; [|split].
      * intros x. rewrite (elem_of_cons (z :: l')), (elem_of_cons l). by rewrite H1.
      * constructor; [done|]. apply Forall_forall. intros x Hx. apply H1 in Hx. by eapply Forall_forall in Hy.
      * apply NoDup_cons. split; [|done]. intros Hin. apply Hne.
        assert (string_le y z) as Hyz. { eapply Forall_forall in Hy; [exact Hy|]. apply H1. left. }
        inversion H2 as [|? ? _ Hz]; subst. apply elem_of_cons in Hin as [->|Hin]; [done|]. eapply Forall_forall in Hz; [|exact Hin]. by apply (anti_symm string_le).
Qed.
(** The functions of a field are exactly those recorded for it, sorted and once each,
    whatever the order in which they were recorded; so are the entrypoints. *)
Theorem C81_index (evs : list stored) (field : string) :
  (∀ key, key ∈ functions_of evs field ↔ ∃ s, s ∈ evs ∧ st_field s = field ∧ st_fn s = key) ∧
  NoDup (functions_of evs field) ∧ StronglySorted string_le (functions_of evs field) ∧
  (∀ key, key ∈ entry_keys evs ↔ ∃ s, s ∈ evs ∧ st_entry s = true ∧ st_fn s = key) ∧
  NoDup (entry_keys evs) ∧ StronglySorted string_le (entry_keys evs).
Proof.
  unfold functions_of, entry_keys.
  destruct (dedupe_spec (merge_sort string_le (omap (λ s, if bool_decide (st_field s = field) then Some (st_fn s) else None) evs))) as (H1 & H2 & H3).
  { apply (StronglySorted_merge_sort string_le). }
  split; [|split; [done|split; [done|split; [|split]]]].
  - intros key. rewrite H1, merge_sort_Permutation, elem_of_list_omap. split.
    + intros (s & Hs & H). exists s. split; [done|]. case_bool_decide; [|done]. by injection H as <-.
    + intros (s & Hs & <- & <-). exists s. split; [done|]. by rewrite bool_decide_eq_true_2.
  - intros key. rewrite merge_sort_Permutation, elem_of_elements, elem_of_list_to_set, elem_of_list_omap. split.
    + intros (s & Hs & H). exists s. split; [done|]. destruct (st_entry s); [|done]. by injection H as <-.
    + intros (s & Hs & He & <-). exists s. split; [done|]. by rewrite He.
  - rewrite merge_sort_Permutation. apply NoDup_elements.
  - apply (StronglySorted_merge_sort string_le).
Qed.
Theorem C81_order (evs evs2 : list stored) (field : string) : evs ≡ₚ evs2 → functions_of evs field = functions_of evs2 field ∧ entry_keys evs = entry_keys evs2.
Proof.
  intros Hp. destruct (C81_index evs field) as (A1 & A2 & A3 & A4 & A5 & A6). destruct (C81_index evs2 field) as (B1 & B2 & B3 & B4 & B5 & B6).
  split; apply (sorted_perm_eq string_le); [by intros a b _ _; apply (anti_symm string_le)|done|done| |by intros a b _ _; apply (anti_symm string_le)|done|done|].
  - apply NoDup_Permutation; [done|done|]. intros x. rewrite A1, B1. by setoid_rewrite Hp.
  - apply NoDup_Permutation; [done|done|]. intros x. rewrite A4, B4. by setoid_rewrite Hp.
Qed.
(** A call of a field is followed into exactly the functions recorded for that field of
    the receiver's type, by pointer or value, qualified or not. *)
Theorem C81_call (evs : list stored) (pkg recv ty name key : string) :
  pkg ≠ "" → name ≠ "" → ty ≠ "" → dotless ty → (∀ t, ty ≠ "*" +:+ t) →
  (recv = ty ∨ recv = "*" +:+ ty ∨ (∃ q, q ≠ "" ∧ recv = "*" +:+ q +:+ "." +:+ ty) ∨ ∃ q, (∀ t, q ≠ "*" +:+ t) ∧ recv = q +:+ "." +:+ ty) →
  key ∈ keys_for evs pkg recv name ↔ ∃ s, s ∈ evs ∧ st_field s = pkg +:+ "." +:+ ty +:+ "." +:+ name ∧ st_fn s = key.
Proof.
  intros Hp Hn Ht Hd Hs Hr. rewrite <- (proj1 (C81_index evs _)). unfold keys_for.
  assert (∀ s, (∀ t, s ≠ "*" +:+ t) → trim_prefix "*" s = s) as Hstar.
  { intros s Hns. unfold trim_prefix. destruct (has_prefix "*" s) eqn:E; [|done]. apply has_prefix_spec in E as [t ->]. by destruct (Hns t). }
  assert (split_last "." ty = None) as Hty by (by apply split_last_none).
  assert (∀ q, split_last "." (q +:+ "." +:+ ty) = Some (q, ty)) as Hq by (intros q; by apply split_last_app).
  assert (trim_prefix "*" recv = ty ∨ ∃ q, trim_prefix "*" recv = q +:+ "." +:+ ty) as Htr.
  { destruct Hr as [->|[->|[(q & _ & ->)|(q & Hns & ->)]]].
    - left. by apply Hstar.
    - left. by rewrite trim_prefix_app.
    - right. exists q. by rewrite trim_prefix_app.
    - right. exists q. apply Hstar. intros t E. destruct q as [|c q]; [done|]. cbn in E. injection E as -> _. by destruct (Hns q). }
  assert (trim_prefix "*" recv ≠ "") as Hne.
  { destruct Htr as [->|[q ->]]; [done|]. by destruct q. }
  cbv zeta. rewrite (bool_decide_eq_false_2 (trim_prefix "*" recv = "")), (bool_decide_eq_false_2 (pkg = "")), (bool_decide_eq_false_2 (name = "")) by done. cbn [orb].
  destruct Htr as [->|[q ->]]; [by rewrite Hty|by rewrite Hq].
Qed.
Print Assumptions C81_index.
Print Assumptions C81_order.
Print Assumptions C81_call.

(** urfave/cli: [app := &App{Commands: []*Command{{Name: "web", Action: runWeb}}}]. *)
Definition fident (pkg name : string) : farg := FArg FIdent name pkg None None None [] None None.
Definition fother (x : option farg) (args : list (option farg)) : farg := FArg FOther "" "" x None None args None None.
Definition literal (ty : option farg) (elts : list farg) : farg := FArg FComposite "" "" ty None None (Some <$> elts) None None.
Definition keyed (name : string) (v : farg) : farg := FArg FKeyValue "" "" (Some (fident "" name)) None (Some v) [] None None.
Definition cli_fields (pkg ty : string) : list (string * string) :=
  if bool_decide (ty = "App") then [("Commands", "[]*Command")]
  else if bool_decide (ty = "Command") then [("Name", "string"); ("Action", "func() error")] else [].
Definition main_funcs (k : string) : bool := bool_decide (k ∈ ["m.runWeb"; "m.runDump"; "m.handler"; "a/web.Run"; "z/server.Run"]).
Definition no_entry (owner field : string) : bool := false.
Definition web_command : farg := literal None [keyed "Name" (fother None []); keyed "Action" (fident "m" "runWeb")].
Definition app_value : farg :=
  fother (Some (literal (Some (fident "m" "App"))
    [keyed "Commands" (literal (Some (FArg FArray "" "" (Some (FArg FStar "" "" (Some (fident "m" "Command")) None None [] None None)) None None [] None None))
       [web_command; literal None [fother None []; fident "m" "runDump"]])])) [].
Definition cli_prog : fprog := FProg [] [("m", app_value)] [] [].
Example C81_example :
  build_dispatch main_funcs cli_fields no_entry false cli_prog =
    [Stored "m.Command.Action" "m.runWeb" false; Stored "m.Command.Action" "m.runDump" false] ∧
  keys_for (build_dispatch main_funcs cli_fields no_entry false cli_prog) "m" "*Command" "Action" = ["m.runDump"; "m.runWeb"].
Proof. split; by vm_compute. Qed.

(** gitea: [var CmdWeb = &cli.Command{Action: web.Run}] with a declared entrypoint. *)
Definition cli_entry (owner field : string) : bool := bool_decide ((owner, field) = ("github.com/urfave/cli/v2.Command", "Action")).
Example C81_instance_example :
  instance_stored main_funcs cli_fields cli_entry true [("a/web", "a/web")] "m" "*github.com/urfave/cli/v2.Command" [("Action", "web.Run"); ("Name", "web")] =
    [Stored "github.com/urfave/cli/v2.Command.Action" "a/web.Run" true].
Proof. by vm_compute. Qed.

(** Full statement, false: a function stored in a field is in the index — not thirteen
    levels down. *)
Fixpoint wrapped (n : nat) (a : farg) : farg := match n with 0 => a | S n => fother (Some (wrapped n a)) [] end.
Theorem C81_deep_refuted :
  ∃ known fields_of entrypoint ctx a d pkg ty f v key, holds fields_of ctx ("", "") a d pkg ty f v ∧ followed fields_of entrypoint pkg ty f ∧
    value_names known ctx v key ∧ functions_of (walk known fields_of entrypoint lit_levels ctx (Some a) ("", "")) (pkg +:+ "." +:+ ty +:+ "." +:+ f) = [].
Proof.
  set (e := keyed "Action" (fident "m" "runWeb")). set (a := literal (Some (fident "m" "Command")) [e]).
  exists main_funcs, cli_fields, no_entry, "m", (wrapped 13 a), 13, "m", "Command", "Action", (fident "m" "runWeb"), "m.runWeb".
  split; [|split; [|split]].
  - assert (∀ n, holds cli_fields "m" ("", "") (wrapped n a) n "m" "Command" "Action" (fident "m" "runWeb")) as H; [|apply H].
    induction n as [|n IH]; cbn [wrapped].
    + change "Command" with (bare_type_name "Command"). change "Action" with (f_name (fident "" "Action")). apply (holds_keyed _ _ _ _ "m" "Command" e); try done. left.
    + eapply holds_below; [|exact IH]. apply below_part; [done|by left].
  - right. exists "func() error". split; [exists [("Name", "string")], []; split; [done|apply not_elem_of_nil]|]. exists "func() error". split; [by left|]. right. by exists ") error".
  - apply value_ident; [done|]. split; [done|]. split; [by vm_compute|]. right. by vm_compute.
  - by vm_compute.
Qed.
(** Full statement, false: the same for a literal assigned in a method. *)
Theorem C81_method_refuted :
  ∃ known fields_of entrypoint a, functions_of (build_dispatch known fields_of entrypoint false (FProg [] [("m", a)] [] [])) "m.Command.Action" = ["m.runDump"; "m.runWeb"] ∧
    functions_of (build_dispatch known fields_of entrypoint false (FProg [] [] [("m", a)] [])) "m.Command.Action" = [].
Proof. exists main_funcs, cli_fields, no_entry, app_value. split; by vm_compute. Qed.
(** Full statement, false: "elements take [the type] from the enclosing slice/array/map" —
    the elements of a map literal get none. *)
Definition map_type (key value : farg) : farg := FArg FOther "" "" (Some key) None (Some value) [] None None.
Theorem C81_map_literal_refuted :
  ∃ known fields_of entrypoint elts, let ty := fident "m" "Command" in
    functions_of (walk known fields_of entrypoint lit_levels "m" (Some (literal (Some (FArg FArray "" "" (Some ty) None None [] None None)) elts)) ("", "")) "m.Command.Action" = ["m.runWeb"] ∧
    functions_of (walk known fields_of entrypoint lit_levels "m" (Some (literal (Some (map_type (fident "" "string") ty)) ((λ e, keyed "" e) <$> elts))) ("", "")) "m.Command.Action" = [].
Proof. exists main_funcs, cli_fields, no_entry, [web_command]. split; by vm_compute. Qed.
Print Assumptions C81_deep_refuted.
Print Assumptions C81_method_refuted.
Print Assumptions C81_map_literal_refuted.

(** ** C82: which function a value names *)
Section names.
Context (known : string → bool).
(** A value resolves exactly to the function it names; it names one at most. *)
Theorem C82_value_exact (v : farg) (ctx key : string) : key_of_value known v ctx = Some key ↔ value_names known ctx v key.
Proof. apply key_of_value_spec. Qed.
(** A rendered value resolves to the function of that name; a qualified one else to the
    first, by text, of the functions of that name in the imports that answer to the
    qualifier.  The order of the imports does not matter. *)
Theorem C82_rendered_exact (imports : list (string * string)) (pkg value key : string) :
  key_from_rendered known imports pkg value = Some key ↔
  names_function known pkg value key ∨
  (∀ k, ¬ names_function known pkg value k) ∧
  ∃ q rest imp, value = q +:+ "." +:+ rest ∧ q ≠ "" ∧ contains_byte "." q = false ∧ imp ∈ imports ∧ answers imp q ∧ key = imp.2 +:+ "." +:+ rest ∧ known key = true ∧
    ∀ imp', imp' ∈ imports → answers imp' q → known (imp'.2 +:+ "." +:+ rest) = true → string_le key (imp'.2 +:+ "." +:+ rest).
Proof.
  unfold key_from_rendered. destruct (key_from_name known pkg value) as [k|] eqn:E.
  { apply key_from_name_spec in E as Hk. split; [by intros [= <-]; left|]. intros [H|[H _]]; [|by apply H in Hk]. apply key_from_name_spec in H. congruence. }
  assert (∀ k, ¬ names_function known pkg value k) as Hno by (intros k Hk%key_from_name_spec; congruence).
  set (cand q rest := omap (λ imp : string * string,
          if bool_decide (imp.1 = q) || tail_matches imp.2 q
          then let key := imp.2 +:+ "." +:+ rest in if known key then Some key else None else None) imports).
  assert (∀ q rest x, x ∈ cand q rest ↔ ∃ imp, imp ∈ imports ∧ answers imp q ∧ x = imp.2 +:+ "." +:+ rest ∧ known x = true) as Hc.
  { intros q rest x. unfold cand. rewrite elem_of_list_omap. split.
    - intros (imp & Hi & H). destruct (bool_decide (imp.1 = q) || tail_matches imp.2 q) eqn:Ea; [|done]. cbv zeta in H.
      destruct (known (imp.2 +:+ "." +:+ rest)) eqn:Ek; [|done]. injection H as <-. exists imp. split; [done|]. split; [by apply answers_spec|done].
    - intros (imp & Hi & Ha & -> & Hk). exists imp. split; [done|]. apply answers_spec in Ha. rewrite Ha. cbv zeta. by rewrite Hk. }
  split.
  - intros H. right. split; [done|]. destruct (cut_dot value) as [[q rest]|] eqn:Ecut; [|done]. destruct (decide (q = "")) as [Hq|Hq]; [by rewrite bool_decide_eq_true_2 in H|].
    rewrite bool_decide_eq_false_2 in H by done. apply cut_dot_spec in Ecut as [-> Hdot]. change (head (merge_sort string_le (cand q rest)) = Some key) in H.
    apply head_Some in H as [l Hl].
    assert (key ∈ cand q rest) as Hin. { rewrite <- (merge_sort_Permutation string_le), Hl. left. }
    apply Hc in Hin as (imp & Hi & Ha & Hkey & Hk). exists q, rest, imp. split; [done|]. split; [done|]. split; [done|]. split; [done|]. split; [done|]. split; [done|]. split; [done|].
    intros imp' Hi' Ha' Hk'. assert (imp'.2 +:+ "." +:+ rest ∈ key :: l) as Hx.
    { rewrite <- Hl, merge_sort_Permutation. apply Hc. by exists imp'. }
    apply elem_of_cons in Hx as [->|Hx]; [done|].
    assert (StronglySorted string_le (key :: l)) as Hs by (rewrite <- Hl; apply (StronglySorted_merge_sort string_le)).
    inversion Hs as [|? ? _ Hf]; subst. eapply Forall_forall in Hf; done.
  - intros [H|(_ & q & rest & imp & -> & Hq & Hdot & Hi & Ha & Hkey & Hk & Hmin)]; [by apply Hno in H|].
    rewrite (proj2 (cut_dot_spec _ q rest)) by done. rewrite bool_decide_eq_false_2 by done. change (head (merge_sort string_le (cand q rest)) = Some key).
    assert (key ∈ cand q rest) as Hin by (apply Hc; by exists imp).
    rewrite <- (merge_sort_Permutation string_le) in Hin.
    assert (StronglySorted string_le (merge_sort string_le (cand q rest))) as Hs by apply (StronglySorted_merge_sort string_le).
    destruct (merge_sort string_le (cand q rest)) as [|x l] eqn:El; [by apply elem_of_nil in Hin|]. cbn. f_equal.
    assert (x ∈ cand q rest) as Hx by (rewrite <- (merge_sort_Permutation string_le), El; left). apply Hc in Hx as (imp' & Hi' & Ha' & -> & Hk').
    apply (anti_symm string_le); [|by apply Hmin]. apply elem_of_cons in Hin as [->|Hin]; [done|]. inversion Hs as [|? ? _ Hf]; subst. eapply Forall_forall in Hf; done.
Qed.
End names.
Print Assumptions C82_value_exact.
Print Assumptions C82_rendered_exact.
Example C82_example :
  key_from_rendered main_funcs [("fmt", "fmt"); ("a/web", "a/web")] "m" "web.Run" = Some "a/web.Run" ∧
  key_from_rendered main_funcs [] "m" "runWeb" = Some "m.runWeb" ∧ key_from_rendered main_funcs [("fmt", "fmt")] "m" "[]*Command{{}}" = None ∧
  answers ("github.com/go-chi/chi/v5", "github.com/go-chi/chi/v5") "chi".
Proof.
  split; [by vm_compute|]. split; [by vm_compute|]. split; [by vm_compute|]. right. split; [done|]. split; [done|].
  exists ["github.com"; "go-chi"]. right. exists "v5". split; [by exists "5"%char, ""|by vm_compute].
Qed.

(** Full statement, false: a qualified name is the function of the import with that alias —
    another import whose path ends in the qualifier, under an alias of its own, comes
    before it. *)
Theorem C82_alias_refuted :
  ∃ known imports pkg q rest path, imports !! 0 = Some (q, path) ∧ NoDup imports.*1 ∧ known (path +:+ "." +:+ rest) = true ∧
    ∃ other, known (other +:+ "." +:+ rest) = true ∧ other ≠ path ∧ key_from_rendered known imports pkg (q +:+ "." +:+ rest) = Some (other +:+ "." +:+ rest).
Proof.
  exists main_funcs, [("web", "z/server"); ("old", "a/web")], "m", "web", "Run", "z/server". split; [done|]. split; [apply (bool_decide_unpack _); by vm_compute|].
  split; [by vm_compute|]. exists "a/web". split; [by vm_compute|]. split; [done|]. by vm_compute.
Qed.
(** Full statement, false: "a variable holding a function ([Action: h.handler] where
    handler is a field) names no body, so it contributes nothing rather than a guess" — a
    function of the package with the name of the field is taken. *)
Theorem C82_field_guess_refuted :
  ∃ known v ctx x s key, f_kind v = FSelector ∧ f_recv v = None ∧ f_x v = Some x ∧ f_kind x = FIdent ∧ f_type x = Some "Server" ∧ f_sel v = Some s ∧
    known (ctx +:+ "." +:+ "Server" +:+ "." +:+ f_name s) = false ∧ key_of_value known v ctx = Some key ∧ key = ctx +:+ "." +:+ f_name s.
Proof.
  set (x := FArg FIdent "h" "m" None None None [] None (Some "Server")). set (s := fident "m" "handler").
  exists main_funcs, (FArg FSelector "" "m" (Some x) (Some s) None [] None (Some "func() error")), "m", x, s, "m.handler". repeat split; by vm_compute.
Qed.
Print Assumptions C82_alias_refuted.
Print Assumptions C82_field_guess_refuted.

(** A rendered type splits into the import path of its package and its name under any
    number of slice and pointer marks. *)
Theorem C82_qualified (marks : list bool) (pkg name : string) : let t := foldr (λ (m : bool) s, (if m then "[]" else "*") +:+ s) (pkg +:+ "." +:+ name) marks in
  trim_space t = t → contains_byte "/" pkg = true → dotless name → (∀ r, pkg ≠ "[]" +:+ r ∧ pkg ≠ "*" +:+ r) → split_qualified t = (pkg, name).
Proof.
  intros t Ht Hsl Hd Hp. unfold split_qualified. rewrite Ht.
  assert (has_prefix "[]" (pkg +:+ "." +:+ name) = false ∧ has_prefix "*" (pkg +:+ "." +:+ name) = false) as [H1 H2].
  { split.
    - destruct (has_prefix _ _) eqn:E; [|done]. apply has_prefix_spec in E as [r E]. exfalso. destruct pkg as [|c [|c' p]]; [done| |].
      + cbn in E. injection E as -> E. done.
      + cbn in E. injection E as -> -> _. by destruct (proj1 (Hp p)).
    - destruct (has_prefix _ _) eqn:E; [|done]. apply has_prefix_spec in E as [r E]. exfalso. destruct pkg as [|c p]; [done|]. cbn in E. injection E as -> _. by destruct (proj2 (Hp p)). }
  set (q := pkg +:+ "." +:+ name) in *.
  assert (∀ n s, trim_prefix "*" (trim_prefix "[]" s) = s → trim_marks n s = s) as Hstop.
  { intros [|n] s Hs; [done|]. cbn [trim_marks]. rewrite Hs. by rewrite bool_decide_eq_true_2. }
  assert (trim_prefix "*" (trim_prefix "[]" q) = q) as Hq. { unfold trim_prefix. rewrite H1. by rewrite H2. }
  assert (∀ n (ms : list bool), String.length (foldr (λ (m : bool) s, (if m then "[]" else "*") +:+ s) q ms) ≤ n →
    trim_marks n (foldr (λ (m : bool) s, (if m then "[]" else "*") +:+ s) q ms) = q) as Hm.
  { induction n as [|n IH]; intros ms Hl; [destruct ms as [|[] ms]; [done| |]; apply Nat.le_0_r in Hl; discriminate Hl|].
    destruct ms as [|[] ms]; [by apply Hstop| |].
    - cbn [foldr] in *. set (rest := foldr _ q ms) in *. cbn [trim_marks]. rewrite (trim_prefix_app rest "[]"). rewrite bool_decide_eq_false_2.
      2: { intros E. apply (f_equal String.length) in E. rewrite ?sapp_length in E; cbn in E. unfold trim_prefix in E. destruct (has_prefix "*" rest) eqn:Ep; [|lia].
           apply has_prefix_spec in Ep as [r ->]. rewrite str_drop_app in E. rewrite ?sapp_length in E; cbn in E; lia. }
      destruct (has_prefix "*" rest) eqn:Ep.
      + destruct ms as [|[] ms]; [subst rest; cbn [foldr] in Ep; congruence|done|]. subst rest. cbn [foldr] in *. rewrite trim_prefix_app. apply IH. rewrite ?sapp_length in Hl; cbn in Hl; lia.
      + assert (trim_prefix "*" rest = rest) as -> by (unfold trim_prefix; by rewrite Ep). apply IH. fold rest. rewrite ?sapp_length in Hl; cbn in Hl; lia.
    - cbn [foldr] in *. set (rest := foldr _ q ms) in *. cbn [trim_marks].
      assert (trim_prefix "[]" ("*" +:+ rest) = "*" +:+ rest) as -> by done. rewrite (trim_prefix_app rest "*"). rewrite bool_decide_eq_false_2.
      2: { intros E. apply (f_equal String.length) in E. rewrite ?sapp_length in E; cbn in E; lia. }
      apply IH. fold rest. rewrite ?sapp_length in Hl; cbn in Hl; lia. }
  subst t. cbv zeta. rewrite Hm by done. subst q. change (pkg +:+ "." +:+ name) with (pkg +:+ String "." name). rewrite split_last_app by done. rewrite bool_decide_eq_false_2 by (by intros ->). by rewrite Hsl.
Qed.
(** The element type of a slice, an array or a map is the text after the brackets. *)
Theorem C82_element (inside t : string) : contains_byte "]" inside = false →
  element_type_name ("[" +:+ inside +:+ "]" +:+ t) = t ∧ element_type_name ("map[" +:+ inside +:+ "]" +:+ t) = t.
Proof.
  intros H.
  assert (after_bracket (inside +:+ "]" +:+ t) = Some t) as Hb.
  { revert H. induction inside as [|c s IH]; intros H; [done|]. unfold contains_byte in H. cbn in H. apply orb_false_iff in H as [Hc H].
    change (String c s +:+ "]" +:+ t) with (String c (s +:+ "]" +:+ t)). cbn [after_bracket]. rewrite Hc. by apply IH. }
  split.
  - unfold element_type_name. destruct inside as [|c s]; [done|]. assert (has_prefix "[]" ("[" +:+ String c s +:+ "]" +:+ t) = false) as ->.
    { destruct (has_prefix _ _) eqn:E; [|done]. apply has_prefix_spec in E as [r E]. cbn in E. injection E as -> _. by cbn in H. }
    assert (has_prefix "[" ("[" +:+ String c s +:+ "]" +:+ t) = true) as -> by (apply has_prefix_spec; by eexists). rewrite orb_true_r.
    assert (after_bracket ("[" +:+ String c s +:+ "]" +:+ t) = after_bracket (String c s +:+ "]" +:+ t)) as -> by done. by rewrite Hb.
  - unfold element_type_name. assert (has_prefix "[]" ("map[" +:+ inside +:+ "]" +:+ t) = false) as -> by done.
    assert (has_prefix "map[" ("map[" +:+ inside +:+ "]" +:+ t) = true) as -> by (apply has_prefix_spec; by eexists).
    assert (after_bracket ("map[" +:+ inside +:+ "]" +:+ t) = after_bracket (inside +:+ "]" +:+ t)) as -> by done. cbn [orb]. by rewrite Hb.
Qed.
Print Assumptions C82_qualified.
Print Assumptions C82_element.
Example C82_types_example :
  split_qualified "[]*github.com/x/clipkg.Command" = ("github.com/x/clipkg", "Command") ∧ element_type_name "map[string]*Command" = "*Command" ∧ element_type_name "[4]T" = "T".
Proof. by vm_compute. Qed.
(** Full statement, false: the same for a map whose keys are arrays. *)
Theorem C82_array_keys_refuted : ∃ k t, element_type_name ("map[" +:+ k +:+ "]" +:+ t) ≠ t ∧ k = "[2]string".
Proof. exists "[2]string", "Command". split; [by vm_compute|done]. Qed.
Print Assumptions C82_array_keys_refuted.
