(** * Proofs about the schemas of types over one declared type. *)
From Coq Require Import Ascii.
From stdpp Require Import base numbers list strings gmap.
From Verif Require Import StrLib StrSplit StrSub DecLib PathModel PathProofs2 VerbProofs ScanModel ScanProps TypeModel TypeSpec TypeProofs TypeProps FieldModel FieldProofs GenModel NameModel NameProps ConModel ConProofs WireModel WireSpec WireProofs.

(** A letter or a digit. *)
Definition alnum (c : ascii) : bool :=
  let n := nat_of_ascii c in (Nat.leb 48 n && Nat.leb n 57) || (Nat.leb 65 n && Nat.leb n 90) || (Nat.leb 97 n && Nat.leb n 122).
(** The path of a package, of letters, digits, dots and slashes; the name of a type, of letters and
    digits. [time.Time] is left out. *)
Definition declared (p n : string) : Prop :=
  p ≠ "" ∧ all_bytes (λ c, alnum c || bool_decide (c = "/"%char) || bool_decide (c = "."%char)) p = true ∧
  n ≠ "" ∧ n ≠ "map" ∧ all_bytes alnum n = true ∧ p +:+ "." +:+ n ≠ "time.Time".
(** A type over a declared name. *)
Fixpoint over (N : string) (t : wtype) : Prop :=
  match t with
  | Scalar b => b = N
  | Ptr t => over N t ∧ match t with Ptr _ => False | _ => True end
  | Slice t => over N t
  | Arr n t => (Z.of_nat n ≤ 9223372036854775807)%Z ∧ over N t
  | Map k t => k ∈ key_names ∧ over N t
  end.

Definition wordy (c : ascii) : bool := alnum c || bool_decide (c = "/"%char) || bool_decide (c = "."%char).
Lemma no_pattern c p s : contains_byte c s = false → contains_byte c p = true → str_contains p s = false.
Proof.
  intros H1 H2. destruct (str_contains p s) eqn:E; [|done]. apply str_contains_spec in E as (a & b & ->). rewrite !contains_byte_app, H2, orb_true_r in H1. done.
Qed.
Lemma no_special f s : all_bytes f s = true → (∀ c, f c = true → mem_byte c special = false) → str_any (λ c, mem_byte c special) s = false.
Proof. intros H Hf. induction s as [|c s IH]; [done|]. rewrite all_bytes_cons in H. cbn [str_any]. apply andb_prop in H as [H1 H2]. rewrite IH by done. rewrite orb_false_r. by apply Hf. Qed.
Lemma wordy_special c : wordy c = true → mem_byte c special = false.
Proof. destruct c as [[] [] [] [] [] [] [] []]; by vm_compute. Qed.
Lemma alnum_special c : alnum c = true → mem_byte c special = false.
Proof. destruct c as [[] [] [] [] [] [] [] []]; by vm_compute. Qed.

Fixpoint dref (p n : string) (t : wtype) : tref :=
  match t with
  | Scalar _ => TNamed p n [] ""
  | Ptr t => TPtr (dref p n t)
  | Slice t => TSlice (dref p n t)
  | Arr m t => TArr (itoa_nat m) (dref p n t)
  | Map k t => TMap (TNamed "" k [] "") (dref p n t)
  end.
(** The reference to the component of a declared type. *)
Definition component_ref (N : string) : wschema := WS ("#/components/schemas/" +:+ component_name N) "" "" 0 0 0 None None.
(** Is the type the declared type, or a pointer to it? *)
Definition leafy (t : wtype) : bool := match t with Scalar _ | Ptr (Scalar _) => true | _ => false end.
(** The schema of a type over a declared type whose own schema is [s]. *)
Fixpoint dshape (N : string) (s : wschema) (t : wtype) : wschema :=
  let item t := if leafy t && negb (primitive_shaped s) then component_ref N else dshape N s t in
  match t with
  | Scalar _ => s
  | Ptr t => dshape N s t
  | Slice t => WS "" "array" "" 0 0 0 (Some (item t)) None
  | Arr m t => WS "" "array" "" 0 (Z.of_nat m) (Z.of_nat m) (Some (item t)) None
  | Map k t => if decide (k = "string") then WS "" "object" "" 0 0 0 None (Some (item t)) else leaf "object" ""
  end.
Section declared.
  Context (p n : string) (Hd : declared p n).
  Notation N := (p +:+ "." +:+ n).
  Lemma N_wordy : all_bytes wordy N = true.
  Proof.
    destruct Hd as (_ & H1 & _ & _ & H2 & _). rewrite all_bytes_app. apply andb_true_intro. split; [exact H1|]. change ("." +:+ n) with (String "." n). rewrite all_bytes_cons.
    apply andb_true_intro. split; [done|]. apply (all_bytes_weaken alnum); [|done]. intros c Hc. unfold wordy. by rewrite Hc.
  Qed.
  Lemma N_no c : wordy c = false → contains_byte c N = false.
  Proof. apply all_bytes_contains, N_wordy. Qed.
  Lemma N_ok : name_ok p n.
  Proof.
    destruct Hd as (_ & H1 & H3 & H4 & H2 & _). apply name_ok_lit; [by apply (no_special _ _ H1), wordy_special|by apply (no_special _ _ H2), alnum_special|done|done| |].
    - by apply (all_bytes_contains alnum).
    - apply (no_pattern ">"); [by apply N_no|done].
  Qed.
  Lemma d_render t : over N t → text t = render Dotted (dref p n t).
  Proof.
    induction t as [b|t IH|t IH|m t IH|k t IH]; intros H; cbn [text over] in *; cbn [dref render].
    - subst. destruct Hd as (Hp & _). by destruct p.
    - by rewrite <- IH by apply H.
    - by rewrite <- IH by apply H.
    - by rewrite <- IH by apply H.
    - by rewrite <- IH by apply H.
  Qed.
  Lemma d_wf t : over N t → wf (dref p n t).
  Proof.
    induction t as [b|t IH|t IH|m t IH|k t IH]; intros H; cbn [over] in *; cbn [dref well_formed].
    - left. split; [done|]. split; [apply N_ok|done].
    - apply IH, H.
    - apply IH, H.
    - destruct H as (_ & H). split; [|split; [|by apply IH]].
      + intros E. pose proof (parse_nat_itoa_nat m) as Hq. by rewrite E in Hq.
      + apply balanced_lit. assert (all_digits (itoa_nat m) = true) as Hdg by apply all_digits_pretty. revert Hdg. generalize (itoa_nat m) as s.
        induction s as [|c s IHs]; [done|]. cbn [all_digits str_any]. intros [Hc Hs]%andb_prop. rewrite IHs by done. rewrite orb_false_r.
        revert Hc. destruct c as [[] [] [] [] [] [] [] []]; by vm_compute.
    - destruct H as [Hk H]. split; [|by apply IH].
      pose proof (scalar_wf k (key_scalar k Hk)) as Hw. cbn [to_ref] in Hw. rewrite decide_False in Hw by (by apply key_not_time). exact Hw.
  Qed.
  Lemma d_parse t : over N t → parse_type (text t) = dref p n t.
  Proof. intros H. rewrite d_render by done. by apply C11_dotted_round_trip, d_wf. Qed.
  Lemma d_trim t : over N t → trim_space (text t) = text t.
  Proof. intros H. apply firm_trim_id. rewrite d_render by done. by apply (render_facts (dref p n t) false Dotted), d_wf. Qed.
  Lemma d_no_space t : over N t → contains_byte " " (text t) = false.
  Proof.
    induction t as [b|t IH|t IH|m t IH|k t IH]; intros H; cbn [over text] in *; [subst; by apply N_no| | | |]; rewrite ?contains_byte_app, ?IH by (try apply H); try done.
    - rewrite contains_itoa_nat by done. done.
    - destruct H as [Hk H]. destruct (scalar_facts k (key_scalar k Hk)) as (-> & _). done.
  Qed.
  Lemma d_not_untyped t : over N t → untyped_default (text t) = None.
  Proof.
    intros H. apply table_none. intros Hin. apply d_no_space in H.
    assert (∀ s, s ∈ ["untyped bool"; "untyped int"; "untyped rune"; "untyped float"; "untyped complex"; "untyped string"] → contains_byte " " s = true) as Hs.
    { apply Forall_forall. repeat (apply Forall_cons; split); [..|apply Forall_nil_2]; done. }
    by rewrite (Hs _ Hin) in H.
  Qed.
  Lemma n_name : parse_type n = TNamed "" n [] "".
  Proof.
    change n with (render Dotted (TNamed "" n [] "")) at 1. apply C11_dotted_round_trip. left. split; [done|]. split; [|done].
    destruct N_ok as (_ & H1 & H2 & H3 & H4 & _). repeat split; try done.
    - by apply plain_q.
    - apply (no_pattern ">"); [|done]. rewrite contains_byte_app. change (contains_byte ">" "") with false. cbn [orb]. rewrite contains_byte_app. change (contains_byte ">" ".") with false. cbn [orb].
      apply (all_bytes_contains alnum); [apply Hd|done].
  Qed.
  Lemma d_core t : over N t → core (dref p n t) = TNamed p n [] "" ∨ pkg_of (core (dref p n t)) = "".
  Proof.
    induction t as [b|t IH|t IH|m t IH|k t IH]; intros H; cbn [over] in *; cbn [dref core]; [by left|apply IH, H|apply IH, H|apply IH, H|by right].
  Qed.
  Lemma d_container t : over N t → unqualify_container (text t) = text t.
  Proof.
    intros H. unfold unqualify_container, core_pkg, core_name. rewrite d_parse by done. destruct (d_core t H) as [-> | ->]; [|done].
    cbn [pkg_of arg_name]. unfold container_name. rewrite n_name. by rewrite orb_true_r.
  Qed.
  Lemma d_elem_ptr t : over N (Ptr t) → elem_raw (text (Ptr t)) = text t.
  Proof. intros H. unfold elem_raw. rewrite d_trim, d_parse by done. cbn [dref]. change (str_drop 1 (text (Ptr t))) with (text t). apply d_trim, H. Qed.
  Lemma d_elem_slice t : over N t → elem_raw (text (Slice t)) = text t.
  Proof. intros H. unfold elem_raw. rewrite d_trim, d_parse by done. cbn [dref]. change (str_drop 2 (text (Slice t))) with (text t). by apply d_trim. Qed.
  Lemma d_elem_arr m t : over N (Arr m t) → elem_raw (text (Arr m t)) = text t.
  Proof.
    intros H. unfold elem_raw. rewrite d_trim, d_parse by done. cbn [dref].
    change (str_drop 1 (text (Arr m t))) with (itoa_nat m +:+ "]" +:+ text t). rewrite close_plain by (by apply contains_itoa_nat). apply d_trim, H.
  Qed.
  Lemma d_map_parts k t : over N (Map k t) → map_parts (text (Map k t)) = Some (k, text t).
  Proof.
    intros [Hk H]. destruct (key_not_time k Hk) as (_ & Hb & Hne). unfold map_parts. cbn [text].
    rewrite cut_here. assert (take_until (λ c, bool_decide (c = "]"%char)) ("map[" +:+ k +:+ "]" +:+ text t) = "map[" +:+ k) as Et.
    { change ("map[" +:+ k +:+ "]" +:+ text t) with ("map[" +:+ (k +:+ "]" +:+ text t)). rewrite take_until_app. cbn [str_any]. change (str_any _ "map[") with false. cbv iota.
      f_equal. rewrite take_until_app. change (str_any _ k) with (contains_byte "]" k). rewrite Hb. change (take_until _ ("]" +:+ text t)) with "". by rewrite sapp_nil. }
    rewrite Et. assert (contains_byte "]" ("map[" +:+ k +:+ "]" +:+ text t) = true) as ->.
    { rewrite !contains_byte_app. change (contains_byte "]" "]") with true. by rewrite !orb_true_r. }
    change (String.length "") with 0. rewrite sapp_length. change (String.length "map[") with 4.
    rewrite bool_decide_eq_true_2. 2: { destruct k; [done|]. cbn [String.length]. lia. }
    cbn [andb]. assert (str_drop (S (4 + String.length k)) ("map[" +:+ k +:+ "]" +:+ text t) = text t) as ->.
    { replace ("map[" +:+ k +:+ "]" +:+ text t) with (("map[" +:+ k +:+ "]") +:+ text t) by (by rewrite !sapp_assoc).
      replace (S (4 + String.length k)) with (String.length ("map[" +:+ k +:+ "]")); [apply str_drop_app|]. rewrite !sapp_length. change (String.length "map[") with 4. change (String.length "]") with 1. lia. }
    rewrite d_trim by done. change (bool_decide (0 ≠ 0)) with false. cbn [andb]. f_equal. f_equal.
    change (str_drop (0 + 4) ("map[" +:+ k +:+ "]" +:+ text t)) with (k +:+ "]" +:+ text t).
    replace (4 + String.length k - 0 - 4) with (String.length k) by lia. apply str_take_app.
  Qed.
  Lemma N_prefix c q : wordy c = false → has_prefix (String c q) N = false.
  Proof.
    intros H. destruct (has_prefix (String c q) N) eqn:E; [|done]. apply has_prefix_spec in E as [r E]. pose proof (N_no c H) as Hn. rewrite E in Hn.
    rewrite sapp_cons, contains_byte_cons in Hn. by rewrite bool_decide_eq_true_2 in Hn.
  Qed.
  Lemma N_dot : contains_byte "." N = true.
  Proof. rewrite !contains_byte_app. change (contains_byte "." ".") with true. by rewrite orb_true_r. Qed.
  Lemma N_pattern c q : wordy c = false → contains_byte c q = true → str_contains q N = false.
  Proof. intros H. apply no_pattern. by apply N_no. Qed.
  Lemma N_map : has_prefix "map[" N = false.
  Proof.
    destruct (has_prefix "map[" N) eqn:E; [|done]. apply has_prefix_spec in E as [r E]. pose proof (N_no "[" eq_refl) as Hn. rewrite E, contains_byte_app in Hn. done.
  Qed.
  Lemma N_not_listed l : Forall (λ s, contains_byte "." s = false ∨ s = "time.Time") l → N ∉ l.
  Proof.
    intros Hl Hin. rewrite Forall_forall in Hl. destruct (Hl _ Hin) as [H|H]; [by rewrite N_dot in H|]. by destruct Hd as (_ & _ & _ & _ & _ & Hn).
  Qed.
  Ltac listed := repeat (apply Forall_cons; split); [..|by apply Forall_nil_2]; first [by left|by right].
  Lemma N_basic : is_basic N = false.
  Proof. apply bool_decide_eq_false. apply N_not_listed. listed. Qed.
  Lemma N_known : known_type N = None.
  Proof.
    unfold known_type. pose proof N_dot as Hdot. pose proof N_not_listed as HN.
    rewrite decide_False by (intros E; by rewrite E in Hdot). rewrite decide_False by (apply HN; listed). rewrite decide_False by (apply HN; listed).
    rewrite decide_False by (intros E; by rewrite E in Hdot). rewrite decide_False by (apply Hd). rewrite decide_False by (apply HN; listed). done.
  Qed.
  Lemma N_trim : trim_prefix "*" N = N.
  Proof. unfold trim_prefix. by rewrite N_prefix. Qed.
  Lemma N_primitive : is_primitive N = false ∧ is_primitive ("*" +:+ N) = false.
  Proof.
    unfold is_primitive. change (trim_prefix "*" ("*" +:+ N)) with N. rewrite N_trim, N_basic, !N_prefix, N_map by done. done.
  Qed.
  Lemma N_can_ref : can_ref N = true ∧ can_ref ("*" +:+ N) = true.
  Proof.
    assert (∀ q, over N q → q = Scalar N ∨ q = Ptr (Scalar N) → can_ref (text q) = true) as H.
    { intros q Hq Hcase. unfold can_ref. unfold core_name. rewrite d_parse by done. assert (core (dref p n q) = TNamed p n [] "") as -> by (destruct Hcase; by subst).
      cbn [arg_name]. unfold container_name. rewrite n_name. destruct N_primitive as [P1 P2].
      assert (untyped_default n = None) as Hu.
      { apply table_none. intros Hin. assert (contains_byte " " n = false) as Hn by (apply (all_bytes_contains alnum); [apply Hd|done]).
        assert (∀ s, s ∈ ["untyped bool"; "untyped int"; "untyped rune"; "untyped float"; "untyped complex"; "untyped string"] → contains_byte " " s = true) as Hs.
        { apply Forall_forall. repeat (apply Forall_cons; split); [..|apply Forall_nil_2]; done. } by rewrite (Hs _ Hin) in Hn. }
      rewrite Hu. rewrite (bool_decide_eq_false_2 (is_Some None)) by (by intros [? ?]).
      assert (is_primitive (text q) = false) as -> by (destruct Hcase; by subst).
      assert (has_prefix "[]" (text q) = false) as -> by (destruct Hcase; subst; [by apply N_prefix|done]).
      assert (∀ c, wordy c = false → c ≠ "*"%char → contains_byte c (text q) = false) as Hno.
      { intros c Hc Hs. destruct Hcase; subst; cbn [text]; [by apply N_no|]. change ("*" +:+ N) with (String "*" N). rewrite contains_byte_cons, N_no by done. by rewrite bool_decide_eq_false_2. }
      rewrite (no_pattern "[" "map[" (text q)) by (try apply Hno; done). rewrite (no_pattern "_" "_apispec_anonstruct_" (text q)) by (try apply Hno; done).
      unfold anon_struct. rewrite (no_pattern "{" "struct{" (text q)) by (try apply Hno; done).
      destruct (has_suffix "_nested" (text q)) eqn:Es; [|done]. apply has_suffix_spec in Es as [r Es]. pose proof (Hno "_"%char eq_refl ltac:(done)) as Hb. rewrite Es, contains_byte_app in Hb.
      apply orb_false_iff in Hb as [_ Hb]. done. }
    split; [apply (H (Scalar N)); [done|by left]|apply (H (Ptr (Scalar N))); [done|by right]].
  Qed.
  Lemma d_dot t : over N t → contains_byte "." (text t) = true.
  Proof.
    induction t as [b|t IH|t IH|m t IH|k t IH]; intros H; cbn [over text] in *; [subst; apply N_dot|..]; rewrite ?contains_byte_app, ?IH by (try apply H); by rewrite ?orb_true_r.
  Qed.
  Lemma d_not_byte t : over N t → text t ≠ "byte" ∧ text t ≠ "uint8".
  Proof. intros H. apply d_dot in H. split; intros E; by rewrite E in H. Qed.
  Lemma d_trim_star t : over N t → trim_prefix "*" (text t) ∈ texts t.
  Proof.
    intros H. destruct t as [b|t|t|m t|k t].
    - cbn [over text texts] in *. subst. rewrite N_trim. by left.
    - change (trim_prefix "*" (text (Ptr t))) with (text t). right. apply texts_head.
    - by left.
    - by left.
    - by left.
  Qed.
  Context (s : wschema) (Href : w_ref s = "").
  Lemma d_promote t : over N t →
    (if negb (is_primitive (text t)) && promote (text t) (Some (dshape N s t)) then Some (ref_to (text t)) else Some (dshape N s t)) =
    Some (if leafy t && negb (primitive_shaped s) then component_ref N else dshape N s t).
  Proof.
    intros H. destruct (leafy t) eqn:El.
    - assert (t = Scalar N ∨ t = Ptr (Scalar N)) as Hcase.
      { destruct t as [b|[b|u|u|m u|k u]|u|m u|k u]; try done; cbn [over] in H; [left; by subst|right; destruct H as [H _]; by subst]. }
      destruct N_primitive as [P1 P2], N_can_ref as [C1 C2]. unfold promote, ref_to.
      assert (dshape N s t = s) as -> by (destruct Hcase; by subst). rewrite Href. rewrite (bool_decide_eq_true_2 ("" = "")) by done.
      assert (is_primitive (text t) = false) as -> by (destruct Hcase; by subst). assert (can_ref (text t) = true) as -> by (destruct Hcase; by subst).
      assert (trim_prefix "*" (text t) = N) as -> by (destruct Hcase; subst; [apply N_trim|done]). cbn [negb andb]. by destruct (primitive_shaped s).
    - cbn [andb]. assert (promote (text t) (Some (dshape N s t)) = false) as ->; [|by rewrite andb_false_r]. unfold promote.
      assert (∀ u, match u with Map _ _ => True | _ => False end → can_ref (text u) = false ∧ can_ref (text (Ptr u)) = false) as Hmap.
      { intros u Hu. destruct u as [| | | |k u]; try done. unfold can_ref.
        assert (str_contains "map[" (text (Map k u)) = true) as -> by (apply str_contains_spec; by exists "", (k +:+ "]" +:+ text u)).
        assert (str_contains "map[" (text (Ptr (Map k u))) = true) as -> by (apply str_contains_spec; by exists "*", (k +:+ "]" +:+ text u)).
        by rewrite !orb_true_r. }
      destruct t as [b|[b|u|u|m u|k u]|u|m u|k u]; try done; cbn [dshape over] in *.
      + by destruct H as [_ []].
      + cbn [primitive_shaped]. by rewrite andb_false_r.
      + by rewrite andb_false_r.
      + destruct (Hmap (Map k u) I) as [_ ->]. by rewrite andb_false_r.
      + by rewrite andb_false_r.
      + by rewrite andb_false_r.
      + destruct (Hmap (Map k u) I) as [-> _]. by rewrite andb_false_r.
  Qed.
  Lemma map_type_dshape e t : over N t → silent e t → e_named e N = Some s → ∀ f visited, String.length (text t) < f → (∀ x, x ∈ texts t → can_ref (trim_prefix "*" x) = true → x ∉ visited ∧ trim_prefix "*" x ∉ visited) →
    ∃ visited', map_type e f visited (text t) = (Some (dshape N s t), visited').
  Proof.
    intros Hok Hsil Hnm. revert Hok Hsil.
    induction t as [b|t IH|t IH|m t IH|k t IH]; intros Hok Hsil f visited Hn Hv; (destruct f as [|f]; [lia|]); cbn [map_type];
      rewrite (d_not_untyped _ Hok); cbn [default]; rewrite (d_container _ Hok);
      match goal with |- context [(bool_decide (?x ∈ visited) || bool_decide (?y ∈ visited)) && can_ref ?y] =>
        assert ((bool_decide (x ∈ visited) || bool_decide (y ∈ visited)) && can_ref y = false) as ->
          by (destruct (can_ref y) eqn:Ec; [destruct (Hv x (texts_head _) Ec); by rewrite !bool_decide_eq_false_2|by rewrite andb_false_r]) end; cbn [andb];
      destruct (Hsil _ (d_trim_star _ Hok)) as (Hu & _); rewrite Hu; rewrite (bool_decide_eq_false_2 (None = Some true)) by done; cbn [andb];
      destruct (Hsil _ (texts_head _)) as (Hu0 & Hm0 & Hr0 & Hx0); rewrite Hm0.
    - rewrite (d_parse _ Hok). unfold external_of. cbn [over text dref] in *. subst b. rewrite !N_prefix, N_map by done. cbn [orb]. rewrite Hx0.
      unfold map_parts. rewrite (cut_none "map[") by (first [done|by apply (N_pattern "[")]). unfold anon_struct. rewrite (N_pattern "{") by done.
      rewrite N_known, Hnm. by eexists.
    - assert (external_of e (text (Ptr t)) = None) as -> by done. rewrite (d_parse _ Hok). cbn [dref]. rewrite d_elem_ptr by done.
      destruct Hok as [Hok _]. apply (IH Hok (λ x Hx, Hsil x (elem_of_list_further _ _ _ Hx)) f ({[text (Ptr t)]} ∪ visited)).
      + cbn [text] in Hn. rewrite sapp_length in Hn. cbn [String.length] in Hn. lia.
      + apply (grow_visited t _ visited); [done|cbn [text]; rewrite ?sapp_length; cbn [String.length]; lia].
    - assert (external_of e (text (Slice t)) = None) as -> by done. rewrite (d_parse _ Hok). cbn [dref]. rewrite map_parts_slice, d_elem_slice by done.
      destruct (Hsil (text t)) as (Hu1 & _ & Hr1 & _); [right; apply texts_head|]. cbn [over dshape] in *.
      destruct (d_not_byte t Hok) as [B1 B2]. rewrite decide_False by (by intros [E|E]). unfold resolved. rewrite Hr1. rewrite (decide_True (P := "" = "")) by done.
      rewrite Hu1. rewrite (bool_decide_eq_false_2 (is_Some None)) by (by intros [? ?]). cbn [andb]. rewrite andb_false_r.
      destruct (IH Hok (λ x Hx, Hsil x (elem_of_list_further _ _ _ Hx)) f ({[text (Slice t)]} ∪ visited)) as (visited' & ->).
      + cbn [text] in Hn. rewrite sapp_length in Hn. cbn [String.length] in Hn. lia.
      + apply (grow_visited t _ visited); [done|cbn [text]; rewrite ?sapp_length; cbn [String.length]; lia].
      + rewrite d_promote by done. by eexists.
    - assert (external_of e (text (Arr m t)) = None) as -> by done. rewrite (d_parse _ Hok). cbn [dref]. rewrite d_elem_arr by done. destruct Hok as (Hm & Hok).
      destruct (Hsil (text t)) as (Hu1 & _ & Hr1 & _); [right; apply texts_head|]. cbn [dshape]. unfold resolved. rewrite Hr1. rewrite (decide_True (P := "" = "")) by done.
      destruct (d_not_byte t Hok) as [B1 B2]. rewrite decide_False by (by intros [E|E]).
      rewrite Hu1. rewrite (bool_decide_eq_false_2 (is_Some None)) by (by intros [? ?]). cbn [andb]. rewrite andb_false_r. rewrite array_size_itoa by done.
      destruct (IH Hok (λ x Hx, Hsil x (elem_of_list_further _ _ _ Hx)) f ({[text (Arr m t)]} ∪ visited)) as (visited' & ->).
      + cbn [text] in Hn. rewrite !sapp_length in Hn. cbn [String.length] in Hn. lia.
      + apply (grow_visited t _ visited); [done|cbn [text]; rewrite ?sapp_length; cbn [String.length]; lia].
      + rewrite d_promote by done. by eexists.
    - assert (external_of e (text (Map k t)) = None) as -> by done. rewrite (d_parse _ Hok). cbn [dref]. rewrite d_map_parts by done. destruct Hok as [Hk Hok].
      destruct (Hsil (text t)) as (Hu1 & _ & Hr1 & _); [right; apply texts_head|]. cbn [dshape]. unfold resolved. rewrite Hr1. rewrite (decide_True (P := "" = "")) by done.
      destruct (decide (k = "string")) as [Ek|Ek]; [|by eexists].
      destruct (IH Hok (λ x Hx, Hsil x (elem_of_list_further _ _ _ Hx)) f ({[text (Map k t)]} ∪ visited)) as (visited' & ->).
      + cbn [text] in Hn. rewrite !sapp_length in Hn. cbn [String.length] in Hn. lia.
      + apply (grow_visited t _ visited); [done|cbn [text]; rewrite ?sapp_length; cbn [String.length]; lia].
      + rewrite d_promote by done. by eexists.
  Qed.
  Lemma type_schema_dshape e t : over N t → silent e t → e_named e N = Some s → type_schema e (text t) = Some (dshape N s t).
  Proof.
    intros H1 H2 H3. unfold type_schema. destruct (map_type_dshape e t H1 H2 H3 (S (String.length (text t))) ∅) as (v' & ->); [lia| |done].
    intros x _ _. split; apply not_elem_of_empty.
  Qed.
End declared.
