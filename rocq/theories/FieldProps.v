(** * C60: the properties of a documented struct are the keys encoding/json writes. *)
From Coq Require Import Ascii.
From stdpp Require Import base list strings gmap.
From Verif Require Import StrLib StrSplit StrSub PathModel FieldModel FieldProofs.

(** ** What encoding/json does (Go standard library, encoding/json/encode.go and tags.go) *)

(** isValidTag; text beyond ASCII is taken to be letters. *)
Definition name_byte (c : ascii) : bool :=
  in_range "a" "z" c || in_range "A" "Z" c || in_range "0" "9" c || bool_decide (128 ≤ nat_of_ascii c) || mem_byte c "!#$%&()*+-./:;<=>?@[]^_{|}~ ".
Definition valid_name (s : string) : bool := negb (bool_decide (s = "")) && negb (str_any (λ c, negb (name_byte c)) s).
(** The key of a field, from its Go name and the value of its json tag; none when it is not written. *)
Definition json_key (go : string) (tag : option string) : option string :=
  if decide (tag = Some "-") then None
  else let n := before_comma (default "" tag) in Some (if valid_name n then n else go).

(** How a tag is written: not at all, or between back quotes. *)
Definition written (literal : string) (kvs : list (string * string)) : Prop :=
  literal = "" ∧ kvs = [] ∨ literal = String backquote (tag_text kvs +:+ String backquote "").
(** A json value whose name is usable: absent, or made of the bytes a name may have, and not the
    name - with options. *)
Definition usable (tag : option string) : Prop :=
  match tag with None => True | Some v => v = "-" ∨ before_comma v = "" ∨ (valid_name (before_comma v) = true ∧ before_comma v ≠ "-") end.

(** A declared field with its tag read: Go name, type, literal, pairs. *)
Record decl := Decl { dc_name : string; dc_type : string; dc_literal : string; dc_tags : list (string * string) }.
Definition declares (d : decl) : Prop := written (dc_literal d) (dc_tags d) ∧ plain_tag (dc_tags d) ∧ usable (value_of "json" (dc_tags d)).
Definition source (d : decl) : afield := AField [dc_name d] (dc_type d) (dc_literal d).
(** The recorded field. *)
Definition recorded (d : decl) : field := Field (dc_name d) (dc_type d) (tag_text (dc_tags d)).
(** What encoding/json considers of a struct without embedded fields: exported fields with a key. *)
Definition json_fields (exported : string → bool) (ds : list decl) : list (string * decl) :=
  omap (λ d, if exported (dc_name d) then (λ k, (k, d)) <$> json_key (dc_name d) (value_of "json" (dc_tags d)) else None) ds.

Section props.
  Context (unescape : string → option string) (exported : string → bool).

  Lemma field_tag_written literal kvs : written literal kvs → field_tag literal = tag_text kvs.
  Proof. intros [[-> ->]| ->]; [done|]. apply field_tag_raw. Qed.
  Lemma prop_name_plain d : declares d → prop_name (recorded d) = default (dc_name d) (json_key (dc_name d) (value_of "json" (dc_tags d))).
  Proof.
    intros (_ & Hp & Hu). unfold prop_name, recorded. cbn [fl_tag fl_name]. rewrite extract_plain by done. unfold json_key, usable in *.
    destruct (value_of "json" (dc_tags d)) as [v|]; [|done].
    destruct (decide (Some v = Some "-")) as [E|E].
    - injection E as ->. done.
    - destruct Hu as [->|[Hu|[Hu Hn]]]; [done| |].
      + cbn zeta. rewrite Hu. cbn [default from_option id]. rewrite Hu. done.
      + change (default "" (Some v)) with v. cbn zeta. rewrite Hu. cbn [default from_option id].
        assert (before_comma v ≠ "") as Hne. { intros E'. rewrite E' in Hu. done. }
        rewrite !bool_decide_eq_false_2 by done. cbn [orb]. by rewrite decide_False.
  Qed.
  Lemma documented_plain d : declares d →
    documented unescape exported (recorded d) = exported (dc_name d) && bool_decide (is_Some (json_key (dc_name d) (value_of "json" (dc_tags d)))).
  Proof.
    intros (_ & Hp & _). unfold documented, recorded, json_omitted. cbn [fl_tag fl_name]. rewrite tag_lookup_plain by done. unfold json_key.
    destruct (decide (value_of "json" (dc_tags d) = Some "-")) as [->|E].
    - rewrite bool_decide_eq_true_2 by done. cbn. destruct (exported _); done.
    - rewrite bool_decide_eq_false_2 by done. cbn zeta. rewrite bool_decide_eq_true_2 by (eexists; done). by destruct (exported _).
  Qed.

  (** The name of a property is the key encoding/json uses, and a field without key has none. *)
  Theorem C60_same_name d : declares d → dc_name d ≠ "" →
    (documented unescape exported (recorded d) = true ∧ ∃ k, prop_name (recorded d) = k ∧ json_fields exported [d] = [(k, d)]) ∨
    (documented unescape exported (recorded d) = false ∧ json_fields exported [d] = []).
  Proof.
    intros Hd Hn. rewrite documented_plain, prop_name_plain by done. unfold json_fields. cbn [omap list_omap].
    destruct (exported (dc_name d)); [|right; done]. destruct (json_key _ _) as [k|]; [left|right].
    - split; [by rewrite bool_decide_eq_true_2|]. by exists k.
    - split; [by rewrite bool_decide_eq_false_2 by (by intros [? ?])|done].
  Qed.

  Context {S : Type} (schema : field → S).
  Lemma struct_fields_source ds : (struct_fields (source <$> ds)).1 = (λ d, Field (dc_name d) (dc_type d) (field_tag (dc_literal d))) <$> ds.
  Proof. induction ds as [|d ds IH]; [done|]. cbn [fmap list_fmap]. rewrite <- IH. done. Qed.
  Lemma properties_plain ds : Forall declares ds →
    properties unescape exported schema (source <$> ds) = foldl (λ (m : gmap string S) kd, <[kd.1 := schema (recorded kd.2)]> m) ∅ (json_fields exported ds).
  Proof.
    intros H. unfold properties. rewrite struct_fields_source.
    assert (∀ m : gmap string S, foldl (λ (m : gmap string S) f, if documented unescape exported f then <[prop_name f := schema f]> m else m) m
                   ((λ d, Field (dc_name d) (dc_type d) (field_tag (dc_literal d))) <$> ds) =
                 foldl (λ (m : gmap string S) kd, <[kd.1 := schema (recorded kd.2)]> m) m (json_fields exported ds)) as Hm; [|apply Hm].
    induction H as [|d ds Hd H IH]; intros m; [done|]. cbn [fmap list_fmap foldl]. unfold json_fields. cbn [omap list_omap]. fold (json_fields exported ds).
    assert (Field (dc_name d) (dc_type d) (field_tag (dc_literal d)) = recorded d) as ->.
    { unfold recorded. f_equal. by apply field_tag_written, Hd. }
    rewrite documented_plain, prop_name_plain by done. destruct (exported (dc_name d)); [|cbn; apply IH].
    destruct (json_key _ _) as [k|] eqn:E; cbn [fmap option_fmap option_map].
    - rewrite bool_decide_eq_true_2 by (by eexists). cbn [andb foldl]. change (default (dc_name d) (Some k)) with k. apply IH.
    - rewrite bool_decide_eq_false_2 by (by intros [? ?]). cbn [andb]. apply IH.
  Qed.
  Lemma fold_insert_lookup (l : list (string * decl)) (m : gmap string S) k :
    foldl (λ (m : gmap string S) kd, <[kd.1 := schema (recorded kd.2)]> m) m l !! k =
    match last (filter (λ kd, kd.1 = k) l) with Some kd => Some (schema (recorded kd.2)) | None => m !! k end.
  Proof.
    revert m. induction l as [|kd l IH]; intros m; [done|]. cbn [foldl]. rewrite IH. destruct (decide (kd.1 = k)) as [<-|Hn].
    - rewrite filter_cons_True by done. rewrite lookup_insert. rewrite last_cons. by destruct (last _).
    - rewrite filter_cons_False by done. by rewrite lookup_insert_ne.
  Qed.

  (** The properties of a struct are the keys that encoding/json writes, each with the schema of the
      field it writes there: for structs without embedded fields, with conventional tags, no two
      fields of one key. The full claim drops these provisos; see the refutations. *)
  Theorem C60_properties_are_the_keys_partial ds : Forall declares ds → NoDup (json_fields exported ds).*1 →
    ∀ k s, properties unescape exported schema (source <$> ds) !! k = Some s ↔ ∃ d, (k, d) ∈ json_fields exported ds ∧ s = schema (recorded d).
  Proof.
    intros H Hnd k s. rewrite properties_plain by done. rewrite fold_insert_lookup, lookup_empty.
    destruct (last (filter _ _)) as [kd|] eqn:E.
    - apply last_Some in E as [l' E]. assert (kd ∈ filter (λ kd, kd.1 = k) (json_fields exported ds)) as Hin by (rewrite E; set_solver).
      apply elem_of_list_filter in Hin as [<- Hin]. destruct kd as [k d]. cbn [fst snd] in *. split.
      + intros Hs. injection Hs as <-. eauto.
      + intros (d' & Hd & ->). do 3 f_equal. apply elem_of_list_lookup in Hin as [i Hi]. apply elem_of_list_lookup in Hd as [j Hj].
        assert (i = j) as ->. { eapply (NoDup_lookup _ i j k); [exact Hnd| |]; rewrite list_lookup_fmap; [by rewrite Hi|by rewrite Hj]. }
        congruence.
    - apply last_None in E. split; [done|]. intros (d & Hd & _).
      assert ((k, d) ∈ filter (λ kd, kd.1 = k) (json_fields exported ds)) as Hin by (by apply elem_of_list_filter). rewrite E in Hin. set_solver.
  Qed.
  (** Whatever else, nothing is documented under a key no field has, and no key is lost. *)
  Theorem C60_domain ds : Forall declares ds →
    (dom (properties unescape exported schema (source <$> ds)) : gset string) = list_to_set (json_fields exported ds).*1.
  Proof.
    intros H. apply set_eq. intros k. rewrite elem_of_dom, properties_plain, fold_insert_lookup, lookup_empty, elem_of_list_to_set, elem_of_list_fmap by done.
    destruct (last (filter _ _)) as [kd|] eqn:E.
    - apply last_Some in E as [l' E]. assert (kd ∈ filter (λ kd, kd.1 = k) (json_fields exported ds)) as Hin by (rewrite E; set_solver).
      apply elem_of_list_filter in Hin as [<- Hin]. split; [eauto|done].
    - apply last_None in E. split; [by intros [? ?]|]. intros (kd & -> & Hin).
      assert (kd ∈ filter (λ kd', kd'.1 = kd.1) (json_fields exported ds)) as Hin' by (by apply elem_of_list_filter). rewrite E in Hin'. set_solver.
  Qed.
End props.
Print Assumptions C60_same_name.
Print Assumptions C60_properties_are_the_keys_partial.
Print Assumptions C60_domain.

(** The recorded tag is the text between the quotes of the literal, back quotes or double quotes. *)
Theorem C60_tag_text (c : ascii) (body : string) : c = backquote ∨ c = dq → field_tag (String c (body +:+ String c "")) = body.
Proof.
  intros Hc. unfold field_tag. cbv zeta.
  assert (String.length (String c (body +:+ String c "")) = S (S (String.length body))) as ->.
  { cbn [String.length]. rewrite sapp_length. cbn. lia. }
  assert (bool_decide (2 ≤ S (S (String.length body))) = true) as -> by (apply bool_decide_eq_true_2; lia).
  assert (String.get (S (S (String.length body)) - 1) (String c (body +:+ String c "")) = Some c) as ->.
  { replace (S (S (String.length body)) - 1) with (S (String.length body)) by lia. cbn [String.get]. induction body as [|a s IH]; [done|]. rewrite sapp_cons. cbn [String.get String.length]. exact IH. }
  cbn [String.get]. assert (true && bool_decide (Some c = Some backquote) && bool_decide (Some c = Some backquote) || true && bool_decide (Some c = Some dq) && bool_decide (Some c = Some dq) = true) as ->.
  { by destruct Hc as [-> | ->]. }
  cbn [str_drop]. replace (S (S (String.length body)) - 2) with (String.length body) by lia. induction body as [|a s IH]; [by destruct c|]. rewrite sapp_cons. cbn [String.length str_take]. f_equal. exact IH.
Qed.
(** A declaration of several names is that of each name alone, with its type and tag. *)
Theorem C60_field_list {S} (unescape : string → option string) (exported : string → bool) (schema : field → S) (fs gs : list afield) (ns : list string) (ty literal : string) :
  ns ≠ [] → let alone := (λ n, AField [n] ty literal) <$> ns in
  struct_fields (fs ++ AField ns ty literal :: gs) = struct_fields (fs ++ alone ++ gs) ∧
  properties unescape exported schema (fs ++ AField ns ty literal :: gs) = properties unescape exported schema (fs ++ alone ++ gs).
Proof.
  intros Hn alone. assert (struct_fields (fs ++ AField ns ty literal :: gs) = struct_fields (fs ++ alone ++ gs)) as E; [|split; [done|]; unfold properties; by rewrite E].
  unfold struct_fields. rewrite !bind_app, !filter_app. rewrite filter_cons_False by done.
  assert (filter (λ f, af_names f = []) alone = []) as ->. { subst alone. clear. induction ns as [|n ns IH]; [done|]. cbn [fmap list_fmap]. by rewrite filter_cons_False. }
  f_equal. f_equal. cbn [mbind list_bind]. f_equal. subst alone. cbn [af_names af_type af_literal]. clear. induction ns as [|n ns IH]; [done|]. cbn [fmap list_fmap mbind list_bind app]. by rewrite IH.
Qed.
Print Assumptions C60_tag_text.
Print Assumptions C60_field_list.
Example C60_field_list_case :
  struct_fields [AField ["X"; "Y"] "int" (String dq ("a" +:+ String dq ""))] = ([Field "X" "int" "a"; Field "Y" "int" "a"], []).
Proof. by vm_compute. Qed.

(** ** Examples and refutations *)
Definition upper_first (s : string) : bool := match s with String c _ => in_range "A" "Z" c | "" => false end.
Definition lit (kvs : list (string * string)) : string := String backquote (tag_text kvs +:+ String backquote "").
Definition ex_user : list decl :=
  [ Decl "ID" "int" (lit [("json", "id"); ("db", "user_id")]) [("json", "id"); ("db", "user_id")];
    Decl "Name" "string" "" [];
    Decl "Mail" "string" (lit [("validate", "email"); ("json", "mail,omitempty")]) [("validate", "email"); ("json", "mail,omitempty")];
    Decl "Secret" "string" (lit [("json", "-")]) [("json", "-")];
    Decl "cache" "string" (lit [("json", "cache")]) [("json", "cache")] ].
Ltac declares_by :=
  repeat (apply Forall_cons_2 || apply Forall_nil_2); unfold declares; cbn [dc_literal dc_tags];
  (split; [first [left; split; reflexivity | right; reflexivity]|split];
   [unfold plain_tag; repeat (apply Forall_cons_2 || apply Forall_nil_2); unfold plain_key, plain_value; cbn [fst snd]; repeat split; done
   |unfold usable; cbn; first [exact I | left; reflexivity | right; left; reflexivity | right; right; split; [reflexivity|done]]]).
Lemma ex_user_declares : Forall declares ex_user.
Proof. unfold ex_user. declares_by. Qed.
Example C60_example :
  json_fields upper_first ex_user = [("id", Decl "ID" "int" (lit [("json", "id"); ("db", "user_id")]) [("json", "id"); ("db", "user_id")]);
     ("Name", Decl "Name" "string" "" []);
     ("mail", Decl "Mail" "string" (lit [("validate", "email"); ("json", "mail,omitempty")]) [("validate", "email"); ("json", "mail,omitempty")])] ∧
  map_to_list (properties (λ _, None) upper_first fl_type (source <$> ex_user)) ≡ₚ [("id", "int"); ("Name", "string"); ("mail", "string")].
Proof. split; [reflexivity|]. vm_compute. repeat constructor. Qed.

(** An embedded struct's keys are not documented though encoding/json writes them in the outer object
    (no other field of the outer struct has that key): the embedded type is recorded, and no property
    comes from it, whatever it declares. *)
Theorem C60_embedded_refuted : ∃ (base : list decl) (outer : list afield),
  Forall declares base ∧ (json_fields upper_first base).*1 = ["id"] ∧ (struct_fields outer).2 = ["Base"] ∧
  properties (λ _, None) upper_first fl_type outer = {[ "name" := "string" ]}.
Proof.
  exists [Decl "ID" "int" (lit [("json", "id")]) [("json", "id")]], [AField [] "Base" ""; AField ["Name"] "string" (lit [("json", "name")])].
  split; [declares_by|]. vm_compute. done.
Qed.
(** A key that merely ends in json is taken for the json key. *)
Theorem C60_namesake_key_refuted : ∃ kvs, value_of "json" kvs = Some "b" ∧ extract_json_name (tag_text kvs) = "a".
Proof. exists [("bsonjson", "a"); ("json", "b")]. vm_compute. done. Qed.
(** A name with a space is cut at the space. *)
Theorem C60_space_refuted : ∃ kvs, json_key "Name" (value_of "json" kvs) = Some "first name" ∧ extract_json_name (tag_text kvs) = "first".
Proof. exists [("json", "first name")]. vm_compute. done. Qed.
(** The key - with options is documented under the Go name. *)
Theorem C60_dash_refuted : ∃ kvs, json_key "Name" (value_of "json" kvs) = Some "-" ∧ prop_name (Field "Name" "string" (tag_text kvs)) = "Name" ∧
  documented (λ _, None) upper_first (Field "Name" "string" (tag_text kvs)) = true.
Proof. exists [("json", "-,")]. vm_compute. done. Qed.
(** A name encoding/json rejects, falling back to the Go name, is documented nevertheless. *)
Theorem C60_invalid_name_refuted : ∃ kvs, json_key "Name" (value_of "json" kvs) = Some "Name" ∧ prop_name (Field "Name" "string" (tag_text kvs)) = "it's".
Proof. exists [("json", "it's")]. vm_compute. done. Qed.
(** A tag written as an interpreted string literal keeps its backslashes, so the name is wrong and a
    field left out with - is documented. *)
Definition interpreted (kvs : list (string * string)) : string :=
  String dq (str_join " " ((λ kv : string * string, kv.1 +:+ ":\" +:+ String dq (kv.2 +:+ "\" +:+ String dq "")) <$> kvs) +:+ String dq "").
Theorem C60_interpreted_literal_refuted : ∃ kvs,
  json_key "Token" (value_of "json" kvs) = None ∧
  properties (λ _, None) upper_first fl_type [AField ["Token"] "string" (interpreted kvs)] ≠ ∅.
Proof. exists [("json", "-")]. vm_compute. done. Qed.
(** Two fields of one key: encoding/json writes neither, the last one is documented. *)
Theorem C60_same_key_refuted : ∃ d1 d2, Forall declares [d1; d2] ∧ (json_fields upper_first [d1; d2]).*1 = ["id"; "id"] ∧
  map_to_list (properties (λ _, None) upper_first fl_type (source <$> [d1; d2])) = [("id", dc_type d2)].
Proof.
  exists (Decl "A" "int" (lit [("json", "id")]) [("json", "id")]), (Decl "B" "string" (lit [("json", "id")]) [("json", "id")]).
  split; [declares_by|]. vm_compute. done.
Qed.
Print Assumptions C60_embedded_refuted.
