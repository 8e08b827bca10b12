(** * Lemmas about tags and property names. *)
From Coq Require Import Ascii.
From stdpp Require Import base list strings gmap.
From Verif Require Import StrLib StrSplit StrSub FieldModel.

(** ** Substrings around a byte the pattern lacks *)
Lemma contains_byte_cons c a s : contains_byte c (String a s) = bool_decide (a = c) || contains_byte c s.
Proof. done. Qed.
Lemma contains_byte_app c s t : contains_byte c (s +:+ t) = contains_byte c s || contains_byte c t.
Proof. apply str_any_app. Qed.
Lemma has_prefix_before p x d y : contains_byte d p = false → has_prefix p (x +:+ String d y) = has_prefix p x.
Proof.
  revert x. induction p as [|c p IH]; intros x H; [by destruct x|].
  rewrite contains_byte_cons in H. apply orb_false_iff in H as [H1 H2]. apply bool_decide_eq_false in H1.
  destruct x as [|a x].
  - change ("" +:+ String d y) with (String d y). cbn [has_prefix].
    by rewrite bool_decide_eq_false_2.
  - rewrite sapp_cons. cbn [has_prefix]. by rewrite IH.
Qed.
Lemma str_contains_split p x d y : p ≠ "" → contains_byte d p = false →
  str_contains p (x +:+ String d y) = str_contains p x || str_contains p y.
Proof.
  intros Hp Hd. induction x as [|a x IH].
  - change ("" +:+ String d y) with (String d y). cbn [str_contains].
    pose proof (has_prefix_before p "" d y Hd) as E. change ("" +:+ String d y) with (String d y) in E. rewrite E.
    destruct p; [done|]. by rewrite orb_false_l.
  - rewrite sapp_cons. cbn [str_contains]. rewrite IH.
    pose proof (has_prefix_before p (String a x) d y Hd) as E. rewrite sapp_cons in E. rewrite E. by rewrite orb_assoc.
Qed.
Lemma cut_none p s : p ≠ "" → str_contains p s = false → cut p s = None.
Proof.
  intros Hp. induction s as [|c s IH]; cbn [str_contains cut].
  - destruct p; [done|]. done.
  - intros H. apply orb_false_iff in H as [-> H]. by rewrite IH.
Qed.
Lemma cut_skip p x d y : contains_byte d p = false → p ≠ "" → str_contains p x = false →
  cut p (x +:+ String d y) = (λ '(a, b), (x +:+ String d a, b)) <$> cut p y.
Proof.
  intros Hd Hp. induction x as [|c x IH].
  - intros _. change ("" +:+ String d y) with (String d y). cbn [cut].
    pose proof (has_prefix_before p "" d y Hd) as E. change ("" +:+ String d y) with (String d y) in E. rewrite E.
    destruct p as [|]; [done|]. cbn [has_prefix]. by destruct (cut _ y) as [[]|].
  - cbn [str_contains]. intros H. apply orb_false_iff in H as [H1 H2]. rewrite sapp_cons. cbn [cut].
    pose proof (has_prefix_before p (String c x) d y Hd) as E. rewrite sapp_cons in E. rewrite E, H1. rewrite IH by done.
    by destruct (cut p y) as [[]|].
Qed.
Lemma cut_here p s : cut p (p +:+ s) = Some ("", s).
Proof.
  destruct (p +:+ s) eqn:E.
  - apply sapp_eq_nil in E as [-> ->]. done.
  - rewrite <- E. assert (has_prefix p (p +:+ s) = true) as H by (apply has_prefix_spec; eauto).
    rewrite E in H |- *. cbn [cut]. rewrite H. f_equal. f_equal. rewrite <- E. apply str_drop_app.
Qed.

(** ** Conventional tags *)
Definition pair_text (kv : string * string) : string := kv.1 +:+ ":" +:+ String dq (kv.2 +:+ String dq "").
Definition tag_text (kvs : list (string * string)) : string := str_join " " (pair_text <$> kvs).
Definition plain_key (k : string) : Prop :=
  k ≠ "" ∧ str_any (λ c, negb (key_byte c)) k = false ∧ (has_suffix "json" k = true → k = "json").
Definition plain_value (v : string) : Prop :=
  contains_byte dq v = false ∧ contains_byte "\"%char v = false ∧ contains_byte "010"%char v = false ∧ str_contains "json:" v = false.
Definition plain_tag (kvs : list (string * string)) : Prop :=
  Forall (λ kv, plain_key kv.1 ∧ plain_value kv.2 ∧ (kv.1 = "json" → contains_byte space kv.2 = false)) kvs.
Definition value_of (key : string) (kvs : list (string * string)) : option string := snd <$> head (filter (λ kv, kv.1 = key) kvs).
Definition before_comma (s : string) : string := take_until (λ c, bool_decide (c = ","%char)) s.

Lemma key_no_byte k c : key_byte c = false → str_any (λ c, negb (key_byte c)) k = false → contains_byte c k = false.
Proof.
  intros Hc. induction k as [|a k IH]; [done|]. cbn [str_any]. intros H. apply orb_false_iff in H as [H1 H2].
  rewrite contains_byte_cons, IH by done. rewrite orb_false_r. apply bool_decide_eq_false_2. intros ->. by rewrite Hc in H1.
Qed.
Lemma contains_key k : plain_key k → k ≠ "json" → str_contains "json:" (k +:+ ":") = false.
Proof.
  intros (Hn & Hk & Hs) Hj. destruct (str_contains "json:" (k +:+ ":")) eqn:E; [|done]. exfalso.
  apply str_contains_spec in E as (a & b & E).
  destruct (decide (b = "")) as [->|Hb].
  - apply Hj, Hs. apply has_suffix_spec. exists a.
    replace (a +:+ "json:" +:+ "") with ((a +:+ "json") +:+ ":") in E; [by apply sapp_inj_r in E|].
    rewrite sapp_assoc. done.
  - pose proof (key_no_byte k ":"%char eq_refl Hk) as Hc.
    assert (∃ b' c, b = b' +:+ String c "") as (b' & c & ->).
    { clear -Hb. induction b as [|c b IH]; [done|]. destruct (decide (b = "")) as [->|Hn]; [by exists "", c|].
      destruct (IH Hn) as (b' & d & ->). by exists (String c b'), d. }
    assert (k = a +:+ "json:" +:+ b') as ->.
    { replace (a +:+ "json:" +:+ b' +:+ String c "") with ((a +:+ "json:" +:+ b') +:+ String c "") in E by (by rewrite !sapp_assoc).
      apply (f_equal (str_take (String.length k))) in E as E1.
      apply (f_equal String.length) in E as E2. rewrite !sapp_length in E2. cbn [String.length] in E2.
      rewrite str_take_app in E1. rewrite E1.
      replace (String.length k) with (String.length (a +:+ "json:" +:+ b')) by (rewrite !sapp_length; cbn [String.length]; lia).
      by rewrite str_take_app. }
    rewrite contains_byte_app in Hc. apply orb_false_iff in Hc as [_ Hc]. change ("json:" +:+ b') with ("json" +:+ String ":" b') in Hc.
    rewrite contains_byte_app, contains_byte_cons, bool_decide_eq_true_2 in Hc by done. by rewrite orb_true_r in Hc.
Qed.
Lemma contains_pair kv : plain_key kv.1 → plain_value kv.2 → kv.1 ≠ "json" → str_contains "json:" (pair_text kv) = false.
Proof.
  intros Hk (_ & _ & _ & Hv) Hn. unfold pair_text.
  replace (kv.1 +:+ ":" +:+ String dq (kv.2 +:+ String dq "")) with ((kv.1 +:+ ":") +:+ String dq (kv.2 +:+ String dq "")) by (by rewrite sapp_assoc).
  rewrite (str_contains_split _ (kv.1 +:+ ":") dq) by done. rewrite (str_contains_split _ kv.2 dq) by done. by rewrite contains_key, Hv.
Qed.
Lemma tag_text_cons kv kvs : tag_text (kv :: kvs) = pair_text kv +:+ match kvs with [] => "" | _ => String space (tag_text kvs) end.
Proof. destruct kvs as [|kv' kvs]; [by rewrite sapp_nil|]. unfold tag_text. cbn [fmap list_fmap]. by rewrite str_join_cons2. Qed.

(** ** The property name *)
Lemma trim_dq v : contains_byte dq v = false → trim dq (String dq (v +:+ String dq "")) = v.
Proof.
  intros H. unfold trim. cbn [trim_left]. rewrite decide_True by done.
  assert (¬ starts_with dq v) as Hs. { intros [t ->]. rewrite contains_byte_cons, bool_decide_eq_true_2 in H; done. }
  destruct v as [|a v]; [done|].
  assert (trim_left dq (String a v +:+ String dq "") = String a v +:+ String dq "") as ->.
  { apply trim_left_id. intros [t E]. rewrite sapp_cons in E. injection E as -> _. apply Hs. by exists v. }
  rewrite trim_right_byte. apply trim_right_id. intros [t E]. rewrite E, contains_byte_app, contains_byte_cons, bool_decide_eq_true_2 in H by done.
  by rewrite orb_true_r in H.
Qed.
Lemma take_until_space w r : contains_byte space w = false → (r = "" ∨ ∃ t, r = String space t) →
  take_until (λ c, bool_decide (c = space)) (w +:+ r) = w.
Proof.
  intros Hw Hr. induction w as [|c w IH].
  - destruct Hr as [->|[t ->]]; [done|]. change ("" +:+ String space t) with (String space t). cbn [take_until]. by rewrite bool_decide_eq_true_2.
  - rewrite contains_byte_cons in Hw. apply orb_false_iff in Hw as [H1 H2]. rewrite sapp_cons. cbn [take_until]. rewrite H1. by rewrite IH.
Qed.
(** The piece before the next pattern, as far as the first space. *)
Lemma first_chunk p w r : p ≠ "" → contains_byte space p = false → str_contains p w = false → contains_byte space w = false →
  (r = "" ∨ ∃ t, r = String space t) →
  take_until (λ c, bool_decide (c = space)) (match cut p (w +:+ r) with Some (part, _) => part | None => w +:+ r end) = w.
Proof.
  intros Hp Hsp Hc Hw [->|[t ->]].
  - rewrite sapp_nil, cut_none by done. rewrite <- (sapp_nil w) at 1. apply take_until_space; auto.
  - rewrite cut_skip by done. destruct (cut p t) as [[a b]|]; cbn [fmap option_fmap option_map]; apply take_until_space; eauto.
Qed.
Lemma extract_plain kvs : plain_tag kvs →
  extract_json_name (tag_text kvs) =
  match value_of "json" kvs with
  | Some v => let n := before_comma v in if bool_decide (n = "") || bool_decide (n = "-") then "" else n
  | None => ""
  end.
Proof.
  intros H. assert (cut "json:" (tag_text kvs) = None ∧ value_of "json" kvs = None ∨
    ∃ a v r, cut "json:" (tag_text kvs) = Some (a, String dq (v +:+ String dq "") +:+ r) ∧ value_of "json" kvs = Some v ∧
      plain_value v ∧ contains_byte space v = false ∧ (r = "" ∨ ∃ t, r = String space t)) as Hc.
  { induction H as [|kv kvs (Hk & Hv & Hj) H IH]; [by left|]. rewrite tag_text_cons.
    destruct (decide (kv.1 = "json")) as [E|E].
    - right. exists "", kv.2, (match kvs with [] => "" | _ => String space (tag_text kvs) end).
      split_and!; [| |done|by apply Hj|destruct kvs; eauto].
      + unfold pair_text. rewrite E. rewrite !sapp_assoc.
        change ("json" +:+ ":" +:+ String dq (kv.2 +:+ String dq "") +:+ ?r) with ("json:" +:+ (String dq (kv.2 +:+ String dq "") +:+ r)).
        apply cut_here.
      + unfold value_of. rewrite filter_cons_True by done. done.
    - assert (value_of "json" (kv :: kvs) = value_of "json" kvs) as -> by (unfold value_of; by rewrite filter_cons_False).
      pose proof (contains_pair kv Hk Hv E) as Hp. destruct kvs as [|kv' kvs].
      + left. rewrite sapp_nil. split; [by apply cut_none|done].
      + rewrite cut_skip by done. destruct IH as [[E1 E2]|(a & v & r & E1 & E2 & Hr)].
        * left. by rewrite E1.
        * right. exists (pair_text kv +:+ String space a), v, r. by rewrite E1. }
  unfold extract_json_name. destruct Hc as [[-> ->]|(a & v & r & -> & -> & Hv & Hsp & Hr)]; [done|].
  rewrite first_chunk; try done.
  - by rewrite trim_dq by apply Hv.
  - change (String dq (v +:+ String dq "")) with ("" +:+ String dq (v +:+ String dq "")).
    rewrite (str_contains_split _ "" dq) by done. rewrite (str_contains_split _ v dq) by done. destruct Hv as (_ & _ & _ & ->). done.
  - rewrite contains_byte_cons, contains_byte_app, Hsp. done.
Qed.

(** ** The tag lookup *)
Lemma quoted_plain v r : contains_byte dq v = false → contains_byte "\"%char v = false → quoted (v +:+ String dq r) = Some (v, r).
Proof.
  induction v as [|c v IH]; intros H1 H2; [done|]. rewrite contains_byte_cons in H1, H2.
  apply orb_false_iff in H1 as [H1 H1']. apply orb_false_iff in H2 as [H2 H2']. rewrite sapp_cons. cbn [quoted]. rewrite H1, H2.
  by rewrite IH.
Qed.
Lemma take_key k r : str_any (λ c, negb (key_byte c)) k = false → take_until (λ c, negb (key_byte c)) (k +:+ String ":" r) = k.
Proof. induction k as [|c k IH]; [done|]. cbn [str_any]. intros H. apply orb_false_iff in H as [H1 H2]. rewrite sapp_cons. cbn [take_until]. by rewrite H1, IH. Qed.
Lemma lookup_plain unescape key n kvs sp : plain_tag kvs → length kvs < n → sp = "" ∨ sp = " " →
  lookup_tag unescape n key (sp +:+ tag_text kvs) = value_of key kvs.
Proof.
  revert n sp. induction kvs as [|kv kvs IH]; intros n sp H Hn Hs; (destruct n as [|n]; [lia|]).
  - cbn [lookup_tag]. by destruct Hs as [->| ->].
  - apply Forall_cons in H as [(Hk & Hv & _) H]. cbn [lookup_tag].
    assert (trim_left space (sp +:+ tag_text (kv :: kvs)) = tag_text (kv :: kvs)) as ->.
    { assert (trim_left space (tag_text (kv :: kvs)) = tag_text (kv :: kvs)) as E.
      { apply trim_left_id. intros [t E]. rewrite tag_text_cons in E. unfold pair_text in E. destruct Hk as (Hn' & Hb & _).
        destruct kv as [[|c k] v]; [done|]. cbn [fst] in *. rewrite !sapp_cons in E. injection E as -> _. cbn [str_any] in Hb.
        apply orb_false_iff in Hb as [Hb _]. done. }
      destruct Hs as [->| ->]; [done|]. change (" " +:+ ?t) with (String space t). cbn [trim_left]. by rewrite decide_True. }
    rewrite tag_text_cons. unfold pair_text. destruct kv as [k v]. cbn [fst snd] in *. rewrite !sapp_assoc.
    match goal with |- context [k +:+ ":" +:+ ?X] => change (k +:+ ":" +:+ X) with (k +:+ String ":" X); set (R := X) end.
    rewrite take_key by apply Hk. destruct (decide (k = "")) as [->|_]; [by destruct Hk|].
    rewrite str_drop_app. unfold R. rewrite sapp_cons, sapp_assoc.
    rewrite !bool_decide_eq_true_2 by done. cbn [andb].
    change (String dq "" +:+ ?X) with (String dq X). rewrite quoted_plain by apply Hv. unfold value_of.
    destruct (decide (k = key)) as [->|Hne].
    + rewrite filter_cons_True by done. unfold unquote. destruct Hv as (_ & -> & -> & _). done.
    + rewrite filter_cons_False by done. fold (value_of key kvs). destruct kvs as [|kv' kvs].
      * destruct n; [|cbn [lookup_tag]; done]. cbn in Hn. lia.
      * change (String space (tag_text (kv' :: kvs))) with (" " +:+ tag_text (kv' :: kvs)). apply IH; [done| |by right]. cbn [length] in Hn |- *. lia.
Qed.
Lemma tag_text_length kvs : Forall (λ kv : string * string, True) kvs → length kvs ≤ String.length (tag_text kvs).
Proof.
  induction 1 as [|kv kvs _ _ IH]; [done|]. rewrite tag_text_cons, sapp_length. unfold pair_text. rewrite !sapp_length. cbn [String.length length].
  destruct kvs; [cbn; lia|]. cbn [String.length] in *. lia.
Qed.
Lemma tag_lookup_plain unescape key kvs : plain_tag kvs → tag_lookup unescape key (tag_text kvs) = value_of key kvs.
Proof.
  intros H. unfold tag_lookup. apply (lookup_plain unescape key _ kvs ""); [done| |by left].
  pose proof (tag_text_length kvs). assert (Forall (λ kv : string * string, True) kvs) as HT by (by apply Forall_forall). specialize (H0 HT). lia.
Qed.

(** ** Literals *)
Lemma get_app_last s c : String.get (String.length s) (s +:+ String c "") = Some c.
Proof. induction s as [|a s IH]; [done|]. cbn. exact IH. Qed.
Lemma field_tag_raw s : field_tag (String backquote (s +:+ String backquote "")) = s.
Proof.
  unfold field_tag. rewrite (bool_decide_eq_true_2 (2 ≤ _)).
  2:{ cbn [String.length]. rewrite sapp_length. cbn [String.length]. lia. }
  rewrite (bool_decide_eq_true_2 (String.get 0 _ = Some backquote)) by done.
  assert (String.length (String backquote (s +:+ String backquote "")) - 1 = S (String.length s)) as ->.
  { cbn [String.length]. rewrite sapp_length. cbn [String.length]. lia. }
  cbn [String.get]. rewrite get_app_last, bool_decide_eq_true_2 by done. cbn [andb orb].
  assert (String.length (String backquote (s +:+ String backquote "")) - 2 = String.length s) as ->.
  { cbn [String.length]. rewrite sapp_length. cbn [String.length]. lia. }
  cbn [str_drop]. apply str_take_app.
Qed.
