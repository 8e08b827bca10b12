(** * C62: a component name identifies its type. *)
From Coq Require Import Ascii.
From stdpp Require Import base list strings gmap.
From Verif Require Import StrLib StrSplit StrSub TypeModel NameModel.

(** ** Specification *)
Definition identifier_byte (c : ascii) : bool := mem_byte c "abcdefghijklmnopqrstuvwxyzABCDEFGHIJKLMNOPQRSTUVWXYZ0123456789_".
Definition all_bytes (f : ascii → bool) (s : string) : bool := negb (str_any (λ c, negb (f c)) s).
Definition identifier (s : string) : bool := negb (bool_decide (s = "")) && all_bytes identifier_byte s.
(** Letters and digits only. *)
Definition word (s : string) : bool := all_bytes (λ c, identifier_byte c && negb (bool_decide (c = "_"%char))) s.
(** A type of a package, as the tool writes it. *)
Definition declared (pkg name : string) : string := pkg +:+ "-->" +:+ name.
(** What a reader of the document does with a reference: JSON pointer (RFC 6901) after the fragment sign,
    the last token is the component. *)
Fixpoint unescape_pointer (s : string) : option string :=
  match s with
  | "" => Some ""
  | String c r =>
      if decide (c = "~"%char) then
        match r with
        | String d r' => if decide (d = "0"%char) then String "~" <$> unescape_pointer r' else if decide (d = "1"%char) then String "/" <$> unescape_pointer r' else None
        | "" => None
        end
      else String c <$> unescape_pointer r
  end.
Definition resolve {S} (components : gmap string S) (ref : string) : option S :=
  match split_byte "/" ref with
  | ["#"; "components"; "schemas"; tok] => n ← unescape_pointer tok; components !! n
  | _ => None
  end.

(** ** The renaming *)
Definition safe (s : string) : Prop :=
  match s with
  | "" => True
  | String c r => c ≠ " "%char ∧ c ≠ ">"%char ∧ (c = "-"%char → match r with String d _ => d ≠ ">"%char | "" => True end)
  end.
Lemma cn_cons_special c r : c = "/"%char ∨ c = "."%char ∨ c = "["%char → component_name (String c r) = String "_" (component_name r).
Proof. intros H. cbn [component_name]. by rewrite decide_True. Qed.
Lemma cn_cons_drop r : component_name (String "]" r) = component_name r.
Proof. reflexivity. Qed.
Lemma cn_app p s : safe s → component_name (p +:+ s) = component_name p +:+ component_name s.
Proof.
  intros Hs. remember (String.length p) as n eqn:Hn. revert p Hn. induction (lt_wf n) as [n _ IH]. intros p ->.
  assert (∀ q, String.length q < String.length p → component_name (q +:+ s) = component_name q +:+ component_name s) as IH' by (intros q Hq; by eapply IH).
  clear IH. destruct p as [|c r]; [done|]. rewrite sapp_cons. cbn [component_name]. cbn [String.length] in IH'.
  destruct (decide (c = "/"%char ∨ c = "."%char ∨ c = "["%char)); [rewrite sapp_cons; f_equal; apply IH'; lia|].
  destruct (decide (c = " "%char)); [rewrite sapp_cons; f_equal; apply IH'; lia|].
  destruct (decide (c = "]"%char)); [apply IH'; lia|].
  destruct r as [|d r'].
  - change ("" +:+ s) with s. destruct s as [|d r']; [done|]. destruct Hs as (H1 & H2 & H3). rewrite decide_False by (intros [? ?]; done).
    destruct r' as [|e r'']; [done|]. rewrite decide_False; [done|]. intros (-> & -> & ->). by apply H3.
  - rewrite sapp_cons. cbn [String.length] in IH'. destruct (decide (c = ","%char ∧ d = " "%char)); [rewrite sapp_cons; f_equal; apply IH'; lia|].
    destruct r' as [|e r''].
    + change ("" +:+ s) with s. assert (component_name (String d s) = component_name (String d "") +:+ component_name s) as E.
      { change (String d s) with (String d "" +:+ s). apply IH'. cbn; lia. }
      rewrite sapp_cons. destruct s as [|e r'']; [by rewrite sapp_nil|]. destruct Hs as (H1 & H2 & H3). rewrite decide_False by (intros (? & ? & ?); done). by rewrite E.
    + rewrite sapp_cons. cbn [String.length] in IH'. destruct (decide (c = "-"%char ∧ d = "-"%char ∧ e = ">"%char)); [rewrite sapp_cons; f_equal; apply IH'; lia|].
      rewrite sapp_cons. f_equal. rewrite <- !sapp_cons. apply IH'. cbn; lia.
Qed.
Definition kept_byte (c : ascii) : bool := negb (mem_byte c "/.[] ,-").
Lemma cn_kept s : all_bytes kept_byte s = true → component_name s = s.
Proof.
  unfold all_bytes. induction s as [|c s IH]; [done|]. cbn [str_any]. rewrite negb_orb, negb_involutive. intros [Hc Hs]%andb_prop. specialize (IH Hs).
  cbn [component_name].
  assert (∀ b : ascii, mem_byte b "/.[] ,-" = true → c ≠ b) as Hne by (intros b Hb ->; unfold kept_byte in Hc; by rewrite Hb in Hc).
  rewrite decide_False by (intros [H|[H|H]]; by apply Hne in H). rewrite decide_False by (by apply Hne). rewrite decide_False by (by apply Hne).
  destruct s as [|d r']; [by rewrite IH|]. rewrite decide_False by (intros [H _]; by apply Hne in H). destruct r' as [|e r'']; [by rewrite IH|].
  rewrite decide_False by (intros [H _]; by apply Hne in H). by rewrite IH.
Qed.
Lemma all_bytes_weaken (f g : ascii → bool) s : (∀ c, f c = true → g c = true) → all_bytes f s = true → all_bytes g s = true.
Proof.
  intros Hfg. unfold all_bytes. induction s as [|c s IH]; [done|]. cbn [str_any]. rewrite !negb_orb, !negb_involutive. intros [Hc Hs]%andb_prop.
  rewrite (Hfg c Hc). cbn [andb]. by apply IH.
Qed.
Lemma all_bytes_cons f c s : all_bytes f (String c s) = f c && all_bytes f s.
Proof. unfold all_bytes. cbn [str_any]. by rewrite negb_orb, negb_involutive. Qed.
Lemma all_bytes_app f s t : all_bytes f (s +:+ t) = all_bytes f s && all_bytes f t.
Proof. unfold all_bytes. by rewrite str_any_app, negb_orb. Qed.
Lemma identifier_kept c : identifier_byte c = true → kept_byte c = true.
Proof. destruct c as [[] [] [] [] [] [] [] []]; by vm_compute. Qed.
Lemma cn_identifier s : all_bytes identifier_byte s = true → component_name s = s.
Proof. intros H. apply cn_kept. by apply (all_bytes_weaken identifier_byte), H; apply identifier_kept. Qed.
Lemma word_identifier s : word s = true → all_bytes identifier_byte s = true.
Proof. apply all_bytes_weaken. intros c [H _]%andb_prop. done. Qed.
Lemma word_no_underscore s : word s = true → contains_byte "_" s = false.
Proof.
  unfold word, contains_byte. induction s as [|c s IH]; [done|]. rewrite all_bytes_cons. cbn [str_any]. intros [[_ Hc]%andb_prop Hs]%andb_prop.
  rewrite IH by done. destruct (bool_decide (c = "_"%char)); done.
Qed.
Lemma safe_sep n : safe ("-->" +:+ n).
Proof. cbn. done. Qed.
Lemma cn_declared p n : component_name (declared p n) = component_name p +:+ String "_" (component_name n).
Proof. unfold declared. rewrite cn_app by apply safe_sep. f_equal. Qed.
Lemma split_last_inj c a b m n : contains_byte c m = false → contains_byte c n = false → a +:+ String c m = b +:+ String c n → a = b ∧ m = n.
Proof.
  intros Hm Hn E. apply (f_equal (split_byte c)) in E. rewrite !split_byte_app in E. rewrite (split_byte_none c m), (split_byte_none c n) in E by done.
  apply app_inj_tail in E as [E ->]. split; [|done]. rewrite <- (str_join_split c a), <- (str_join_split c b). by rewrite E.
Qed.

(** Within a package, two declared types never share a component. *)
Theorem C62_same_package pkg n m : identifier n = true → identifier m = true →
  component_name (declared pkg n) = component_name (declared pkg m) → n = m.
Proof.
  intros [_ Hn]%andb_prop [_ Hm]%andb_prop. rewrite !cn_declared, (cn_identifier n), (cn_identifier m) by done. intros E. apply sapp_inj_l in E. by injection E.
Qed.
(** Across packages, when the part of the two paths after a common beginning has letters, digits and
    slashes only, and the type names have no underscore. *)
Definition path_byte (c : ascii) : bool := identifier_byte c && negb (bool_decide (c = "_"%char)) || bool_decide (c = "/"%char).
Lemma cn_path_inj p q : all_bytes path_byte p = true → all_bytes path_byte q = true → component_name p = component_name q → p = q.
Proof.
  assert (∀ c r, path_byte c = true → component_name (String c r) = String (if decide (c = "/"%char) then "_" else c) (component_name r)) as Hc.
  { intros c r H. destruct (decide (c = "/"%char)) as [->|Hn]; [by rewrite cn_cons_special by auto|].
    unfold path_byte in H. rewrite (bool_decide_eq_false_2 (c = "/"%char)) in H by done. rewrite orb_false_r in H. apply andb_prop in H as [H _].
    change (String c r) with (String c "" +:+ r).
    assert (∀ b : ascii, mem_byte b "/.[] ,-" = true → c ≠ b) as Hne. { intros b Hb ->. apply identifier_kept in H. unfold kept_byte in H. by rewrite Hb in H. }
    change (String c "" +:+ r) with (String c r). cbn [component_name].
    rewrite decide_False by (intros [E|[E|E]]; by apply Hne in E). rewrite decide_False by (by apply Hne). rewrite decide_False by (by apply Hne).
    destruct r as [|d r']; [done|]. rewrite decide_False by (intros [E _]; by apply Hne in E). destruct r' as [|e r'']; [done|].
    by rewrite decide_False by (intros [E _]; by apply Hne in E). }
  revert q. induction p as [|c p IH]; intros [|d q]; [done| | |]; rewrite ?all_bytes_cons.
  - intros _ [H _]%andb_prop. rewrite Hc by done. done.
  - intros [H _]%andb_prop _. rewrite Hc by done. done.
  - intros [H1 H2]%andb_prop [H3 H4]%andb_prop. rewrite !Hc by done. intros E. injection E as E1 E2. f_equal; [|by apply IH].
    destruct (decide (c = "/"%char)) as [->|N1], (decide (d = "/"%char)) as [->|N2]; try done; subst.
    + unfold path_byte in H3. by vm_compute in H3.
    + unfold path_byte in H1. by vm_compute in H1.
Qed.
Lemma path_safe p n : all_bytes path_byte p = true → safe (p +:+ "-->" +:+ n).
Proof.
  destruct p as [|c p]; [intros; apply safe_sep|]. rewrite all_bytes_cons. intros [H _]%andb_prop. rewrite sapp_cons. cbn [safe].
  split_and!; intros ->; by vm_compute in H.
Qed.
Theorem C62_across_packages_partial common p q n m :
  all_bytes path_byte p = true → all_bytes path_byte q = true → word n = true → word m = true →
  component_name (declared (common +:+ p) n) = component_name (declared (common +:+ q) m) → p = q ∧ n = m.
Proof.
  intros Hp Hq Hn Hm. unfold declared. rewrite !sapp_assoc, !(cn_app common) by (by apply path_safe). intros E. apply sapp_inj_l in E.
  rewrite (cn_app p), (cn_app q) in E by apply safe_sep.
  assert (∀ x, component_name ("-->" +:+ x) = String "_" (component_name x)) as Hsep by done. rewrite (Hsep n), (Hsep m) in E.
  rewrite (cn_identifier n), (cn_identifier m) in E by (by apply word_identifier).
  apply split_last_inj in E as [E ->]; [|by apply word_no_underscore..]. split; [|done]. by apply cn_path_inj.
Qed.

(** Instances of generic types of one package, on arguments with plain names. *)
Definition instance (name : string) (args : list string) : string := name +:+ "[" +:+ str_join ", " args +:+ "]".
Lemma word_no_dash s : word s = true → contains_byte "-" s = false.
Proof.
  unfold word, contains_byte. induction s as [|c s IH]; [done|]. rewrite all_bytes_cons. cbn [str_any]. intros [[Hc _]%andb_prop Hs]%andb_prop.
  rewrite IH by done. destruct (decide (c = "-"%char)) as [->|]; [by vm_compute in Hc|]. by rewrite bool_decide_eq_false_2.
Qed.
Lemma word_safe s t : word s = true → safe t → safe (s +:+ t).
Proof.
  intros Hs Ht. destruct s as [|c s]; [done|]. unfold word in Hs. rewrite all_bytes_cons in Hs. apply andb_prop in Hs as [H _]. rewrite sapp_cons. cbn [safe].
  split_and!; intros ->; by vm_compute in H.
Qed.
Lemma cn_args args : Forall (λ a, word a = true) args → component_name (str_join ", " args +:+ "]") = str_join "-" args.
Proof.
  intros H. induction H as [|a args Ha H IH]; [done|]. destruct args as [|b args].
  - change (str_join ", " [a]) with a. change (str_join "-" [a]) with a. rewrite cn_app by done. rewrite (cn_identifier a) by (by apply word_identifier).
    change (component_name "]") with "". apply sapp_nil.
  - rewrite !str_join_cons2, !sapp_assoc. rewrite cn_app by done. rewrite (cn_identifier a) by (by apply word_identifier). f_equal.
    assert (∀ x, component_name (", " +:+ x) = String "-" (component_name x)) as -> by done. rewrite IH. done.
Qed.
Lemma cn_instance n args : word n = true → Forall (λ a, word a = true) args → component_name (instance n args) = n +:+ String "_" (str_join "-" args).
Proof.
  intros Hn Ha. unfold instance. rewrite cn_app by done. rewrite (cn_identifier n) by (by apply word_identifier). f_equal.
  assert (∀ x, component_name ("[" +:+ x) = String "_" (component_name x)) as -> by done. by rewrite cn_args.
Qed.
Lemma join_no_underscore args : Forall (λ a, word a = true) args → contains_byte "_" (str_join "-" args) = false.
Proof.
  intros H. induction H as [|a args Ha H IH]; [done|]. destruct args as [|b args]; [by apply word_no_underscore|].
  rewrite str_join_cons2. unfold contains_byte in *. rewrite !str_any_app, IH. cbn [str_any]. rewrite !orb_false_r. apply word_no_underscore, Ha.
Qed.
Theorem C62_instances_partial pkg n m args args' :
  word n = true → word m = true → Forall (λ a, word a = true) args → Forall (λ a, word a = true) args' → args ≠ [] → args' ≠ [] →
  component_name (declared pkg (instance n args)) = component_name (declared pkg (instance m args')) → n = m ∧ args = args'.
Proof.
  intros Hn Hm Ha Ha' Hne Hne'. rewrite !cn_declared, !cn_instance by done. intros E. apply sapp_inj_l in E. injection E as E.
  apply split_last_inj in E as [-> E]; [|by apply join_no_underscore..]. split; [done|].
  apply (f_equal (split_byte "-")) in E. rewrite !(split_join "-") in E; [done|done| |done|].
  all: eapply Forall_impl; [eassumption|]; intros a H; by apply word_no_dash.
Qed.

(** No name has a dot, a slash, a space or a bracket: a reference is a pointer of three steps, and the
    viewers that split at dots find it. *)
Theorem C62_no_separators s b : b ∈ ["."; "/"; " "; "["; "]"]%char → contains_byte b (component_name s) = false.
Proof.
  intros Hb. remember (String.length s) as n eqn:Hn. revert s Hn. induction (lt_wf n) as [n _ IH]. intros s ->.
  assert (∀ q, String.length q < String.length s → contains_byte b (component_name q) = false) as IH' by (intros q Hq; by eapply IH).
  clear IH. assert (∀ c x, c ≠ b → contains_byte b x = false → contains_byte b (String c x) = false) as Hcons.
  { intros c x Hc Hx. unfold contains_byte in *. cbn [str_any]. rewrite Hx. by rewrite bool_decide_eq_false_2. }
  destruct s as [|c r]; [done|]. cbn [component_name]. cbn [String.length] in IH'.
  assert ("_"%char ≠ b ∧ "-"%char ≠ b) as [Hu Hd] by (split; intros <-; repeat (apply elem_of_cons in Hb as [Hb|Hb]; [done|]); by apply elem_of_nil in Hb).
  destruct (decide (c = "/"%char ∨ c = "."%char ∨ c = "["%char)) as [|H1]; [apply Hcons; [done|apply IH'; lia]|].
  destruct (decide (c = " "%char)) as [|H2]; [apply Hcons; [done|apply IH'; lia]|].
  destruct (decide (c = "]"%char)) as [|H3]; [apply IH'; lia|].
  assert (c ≠ b) as Hcb. { intros ->. repeat (apply elem_of_cons in Hb as [Hb|Hb]; [subst; tauto|]). by apply elem_of_nil in Hb. }
  destruct r as [|d r']; [by apply Hcons|]. cbn [String.length] in IH'.
  destruct (decide (c = ","%char ∧ d = " "%char)); [apply Hcons; [done|apply IH'; lia]|].
  destruct r' as [|e r'']; [apply Hcons; [done|apply IH'; cbn; lia]|]. cbn [String.length] in IH'.
  destruct (decide (c = "-"%char ∧ d = "-"%char ∧ e = ">"%char)); [apply Hcons; [done|apply IH'; lia]|].
  apply Hcons; [done|apply IH'; cbn; lia].
Qed.
Lemma cn_no_tilde s : contains_byte "~" s = false → contains_byte "~" (component_name s) = false.
Proof.
  remember (String.length s) as n eqn:Hn. revert s Hn. induction (lt_wf n) as [n _ IH]. intros s ->.
  assert (∀ q, String.length q < String.length s → contains_byte "~" q = false → contains_byte "~" (component_name q) = false) as IH' by (intros q Hq; by eapply IH).
  clear IH. assert (∀ c x, contains_byte "~" (String c x) = false ↔ c ≠ "~"%char ∧ contains_byte "~" x = false) as Hcons.
  { intros c x. unfold contains_byte. cbn [str_any]. rewrite orb_false_iff, bool_decide_eq_false. done. }
  destruct s as [|c r]; [done|]. rewrite Hcons. intros [Hc Hr]. cbn [component_name]. cbn [String.length] in IH'.
  destruct (decide (c = "/"%char ∨ c = "."%char ∨ c = "["%char)) as [|H1]; [apply Hcons; split; [done|apply IH'; [lia|done]]|].
  destruct (decide (c = " "%char)) as [|H2]; [apply Hcons; split; [done|apply IH'; [lia|done]]|].
  destruct (decide (c = "]"%char)) as [|H3]; [apply IH'; [lia|done]|].
  destruct r as [|d r']; [by apply Hcons|]. pose proof Hr as Hr0. apply Hcons in Hr as [Hd Hr]. cbn [String.length] in IH'.
  destruct (decide (c = ","%char ∧ d = " "%char)); [apply Hcons; split; [done|apply IH'; [lia|done]]|].
  destruct r' as [|e r'']; [apply Hcons; split; [done|apply IH'; [cbn; lia|done]]|]. pose proof Hr as Hr1. apply Hcons in Hr as [He Hr]. cbn [String.length] in IH'.
  destruct (decide (c = "-"%char ∧ d = "-"%char ∧ e = ">"%char)); [apply Hcons; split; [done|apply IH'; [lia|done]]|].
  apply Hcons; split; [done|apply IH'; [cbn; lia|done]].
Qed.
Lemma unescape_plain s : contains_byte "~" s = false → unescape_pointer s = Some s.
Proof.
  unfold contains_byte. induction s as [|c s IH]; [done|]. cbn [str_any unescape_pointer]. intros [Hc Hs]%orb_false_iff. apply bool_decide_eq_false in Hc.
  rewrite decide_False by done. by rewrite IH.
Qed.
Lemma store_lookup {S} (stores : list (string * S)) k (m : gmap string S) :
  foldl (λ m ts, <[component_name ts.1 := ts.2]> m) m stores !! k =
  match last (filter (λ ts, component_name ts.1 = k) stores) with Some ts => Some ts.2 | None => m !! k end.
Proof.
  revert m. induction stores as [|ts stores IH]; intros m; [done|]. cbn [foldl]. rewrite IH. destruct (decide (component_name ts.1 = k)) as [<-|Hn].
  - rewrite filter_cons_True by done. rewrite lookup_insert, last_cons. by destruct (last _).
  - rewrite filter_cons_False by done. by rewrite lookup_insert_ne.
Qed.
(** A reference made for a type leads to the schema last stored for that very type, provided no other
    stored type has its component name. The full claim has no proviso; see the refutations. *)
Theorem C62_reference_reaches_its_type_partial {S} (stores : list (string * S)) t :
  contains_byte "~" t = false → has_prefix "*" t = false →
  (∀ ts, ts ∈ stores → component_name ts.1 = component_name t → ts.1 = t) →
  resolve (store_components stores) (ref_for_type t) = snd <$> last (filter (λ ts, ts.1 = t) stores).
Proof.
  intros Ht Hp Hinj. unfold resolve, ref_for_type, trim_prefix. rewrite Hp.
  assert (split_byte "/" (ref_prefix +:+ component_name t) = ["#"; "components"; "schemas"; component_name t]) as ->.
  { change (ref_prefix +:+ component_name t) with ("#" +:+ String "/" ("components" +:+ String "/" ("schemas" +:+ String "/" (component_name t)))).
    rewrite !split_byte_app. rewrite (split_byte_none "/" (component_name t)); [done|]. apply C62_no_separators. set_solver. }
  rewrite unescape_plain by (by apply cn_no_tilde). cbn [mbind option_bind]. unfold store_components. rewrite store_lookup, lookup_empty.
  assert (filter (λ ts, component_name ts.1 = component_name t) stores = filter (λ ts, ts.1 = t) stores) as ->.
  { clear Ht Hp. induction stores as [|ts stores IH]; [done|]. destruct (decide (ts.1 = t)) as [E|E].
    - rewrite !filter_cons_True by (done || by rewrite E). f_equal. apply IH. intros ts' H. apply Hinj. by right.
    - rewrite !filter_cons_False; [apply IH; intros ts' H; apply Hinj; by right|done|]. intros E'. by apply E, Hinj; [left|]. }
  by destruct (last _).
Qed.
Print Assumptions C62_same_package.
Print Assumptions C62_across_packages_partial.
Print Assumptions C62_instances_partial.
Print Assumptions C62_no_separators.
Print Assumptions C62_reference_reaches_its_type_partial.

(** The OpenAPI rule for component keys: letters, digits, dot, dash, underscore, at least one. *)
Definition key_byte (c : ascii) : bool := identifier_byte c || mem_byte c ".-".
Definition valid_key (s : string) : bool := negb (bool_decide (s = "")) && all_bytes key_byte s.
Definition import_path (p : string) : bool := all_bytes (λ c, identifier_byte c || mem_byte c "/.-") p.
Lemma cn_path_valid p : import_path p = true → all_bytes key_byte (component_name p) = true.
Proof.
  unfold import_path. remember (λ c, identifier_byte c || mem_byte c "/.-") as f eqn:Hf.
  assert (f ">"%char = false) as Hgt by (subst; reflexivity).
  assert (∀ c, f c = true → c ≠ "/"%char → c ≠ "."%char → key_byte c = true) as Hk.
  { intros c. rewrite Hf. destruct c as [[] [] [] [] [] [] [] []]; vm_compute; try done; intros _ H1 H2; exfalso; (by apply H1) || (by apply H2). }
  clear Hf. induction p as [|c r IH]; [done|]. rewrite all_bytes_cons. intros [Hc Hr]%andb_prop. specialize (IH Hr). cbn [component_name].
  destruct (decide (c = "/"%char ∨ c = "."%char ∨ c = "["%char)) as [|H1]; [by rewrite all_bytes_cons, IH|].
  destruct (decide (c = " "%char)) as [->|H2]; [by rewrite all_bytes_cons, IH|].
  destruct (decide (c = "]"%char)) as [|H3]; [done|].
  assert (key_byte c = true) as Hck by (apply Hk; [done|tauto..]).
  destruct r as [|d r']; [by rewrite all_bytes_cons, IH, Hck|]. pose proof Hr as Hr0. rewrite all_bytes_cons in Hr0. apply andb_prop in Hr0 as [Hd Hr'].
  destruct (decide (c = ","%char ∧ d = " "%char)) as [[-> ->]|H4]; [by vm_compute in Hck|].
  destruct r' as [|e r'']; [by rewrite all_bytes_cons, IH, Hck|].
  destruct (decide (c = "-"%char ∧ d = "-"%char ∧ e = ">"%char)) as [(_ & _ & ->)|H5]; [|by rewrite all_bytes_cons, IH, Hck].
  rewrite all_bytes_cons, Hgt in Hr'. done.
Qed.
Lemma identifier_key s : all_bytes identifier_byte s = true → all_bytes key_byte s = true.
Proof. apply all_bytes_weaken. intros c H. unfold key_byte. by rewrite H. Qed.
(** Declared types of any import path without a tilde or plus get a valid key. *)
Theorem C62_valid_key_partial pkg n : import_path pkg = true → identifier n = true → valid_key (component_name (declared pkg n)) = true.
Proof.
  intros Hp [_ Hn]%andb_prop. rewrite cn_declared, (cn_identifier n) by done. unfold valid_key. rewrite all_bytes_app, all_bytes_cons, (cn_path_valid pkg), (identifier_key n) by done.
  rewrite bool_decide_eq_false_2; [done|]. intros [_ E]%sapp_eq_nil. done.
Qed.
Print Assumptions C62_valid_key_partial.

(** ** Examples *)
Example C62_example :
  component_name (declared "github.com/acme/shop-api/internal/dto" "OrderItem") = "github_com_acme_shop-api_internal_dto_OrderItem" ∧
  component_name (declared "shop/dto" (instance "Page" ["User"; "Order"])) = "shop_dto_Page_User-Order" ∧
  import_path "github.com/acme/shop-api/internal/dto" = true ∧ identifier "OrderItem" = true ∧
  all_bytes path_byte "dto/v1" = true ∧ all_bytes path_byte "store" = true ∧ word "User" = true ∧
  resolve (store_components [(declared "shop/dto" "User", 1); (declared "shop/dto" "Order", 2)]) (ref_for_type (declared "shop/dto" "User")) = Some 1.
Proof. vm_compute. done. Qed.

(** ** Refutations: distinct types under one component. *)
(** A package api.v1 and a package api/v1. *)
Theorem C62_paths_refuted : ∃ p q, p ≠ q ∧ import_path p = true ∧ import_path q = true ∧ component_name (declared p "User") = component_name (declared q "User").
Proof. exists "acme/api.v1", "acme/api/v1". vm_compute. done. Qed.
(** A generic instance and a type with an underscore, in one package. *)
Theorem C62_instance_refuted : ∃ n args m, identifier m = true ∧ component_name (declared "dto" (instance n args)) = component_name (declared "dto" m).
Proof. exists "Page", ["User"], "Page_User". vm_compute. done. Qed.
(** Instances over namesakes of different packages are made one before they are named: the canonical
    form drops the packages of the arguments. *)
Theorem C62_namesake_arguments_refuted : ∃ a b, a ≠ b ∧ canonicalize a = canonicalize b ∧ a = "dto.Page[shop.User]" ∧ b = "dto.Page[admin.User]".
Proof. eexists _, _. split; [|split; [|split; reflexivity]]; vm_compute; done. Qed.
(** So a reference made for one type shows the schema of another. *)
Theorem C62_reference_refuted : ∃ t u (stores : list (string * string)), t ≠ u ∧ NoDup stores.*1 ∧ (t, "schema of t") ∈ stores ∧
  resolve (store_components stores) (ref_for_type t) = Some "schema of u".
Proof.
  exists "dto-->Page[User]", "dto-->Page_User", [("dto-->Page[User]", "schema of t"); ("dto-->Page_User", "schema of u")].
  split; [done|]. split; [repeat constructor; set_solver|]. split; [left|]. vm_compute. done.
Qed.
(** An instance on a pointer, or a path with a tilde, is not a valid key; the reference to the latter
    resolves to nothing. *)
Theorem C62_valid_key_refuted :
  (∃ n args, valid_key (component_name (declared "dto" (instance n args))) = false ∧ canonicalize "dto.Box[*dto.User]" = declared "dto" (instance n args)) ∧
  (∃ p, valid_key (component_name (declared p "User")) = false ∧ resolve (store_components [(declared p "User", 1)]) (ref_for_type (declared p "User")) = None).
Proof. split; [exists "Box", ["*User"]|exists "git.sr.ht/~acme/dto"]; vm_compute; done. Qed.
Print Assumptions C62_reference_refuted.
