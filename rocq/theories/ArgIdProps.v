(** * C117: the identifiers of arguments. *)
From Coq Require Import Ascii.
From stdpp Require Import base list strings gmap.
From Verif Require Import StrLib StrSplit StrSub StrOrder IdModel IdSpec IdProofs NameProps ArgIdModel.

(** A range visits every entry once. *)
Definition ranges (range : gmap string string → list (string * string)) : Prop := ∀ m, range m ≡ₚ map_to_list m.

Lemma params_text_order r1 r2 m : ranges r1 → ranges r2 → params_text r1 m = params_text r2 m.
Proof.
  intros H1 H2. unfold params_text. assert (r1 m ≡ₚ r2 m) as P by (by rewrite (H1 m), (H2 m)).
  destruct (r1 m) as [|p l], (r2 m) as [|q k]; [done|by apply Permutation_nil_cons in P|by symmetry in P; apply Permutation_nil_cons in P|].
  by rewrite (ssort_unique _ _ (fmap_Permutation _ _ _ P)).
Qed.
Lemma arg_id_order r1 r2 (H1 : ranges r1) (H2 : ranges r2) : ∀ sep a, arg_id r1 sep a = arg_id r2 sep a.
Proof.
  fix arg_id_order 2. intros sep a. destruct a as [k t own edge x fn sel recv]. cbn [arg_id]. rewrite (params_text_order r1 r2 _ H1 H2).
  destruct k; try done.
  - destruct x as [x|]; [|done]. by rewrite (arg_id_order "/" x).
  - destruct fn as [f|]; [|done]. by rewrite (arg_id_order "." f).
  - destruct fn as [f|]; [|done]. by rewrite (arg_id_order "." f).
  - destruct x as [x|]; [|done]. by rewrite (arg_id_order "/" x).
  - destruct x as [x|]; [|done]. by rewrite (arg_id_order "/" x).
  - destruct x as [x|]; [|done]. by rewrite (arg_id_order "/" x).
Qed.
(** The identifier does not depend on the order in which the map of type parameters is ranged over. *)
Theorem C117_order r1 r2 a : ranges r1 → ranges r2 → made_id r1 a = made_id r2 a.
Proof. intros H1 H2. unfold made_id. by rewrite (arg_id_order r1 r2 H1 H2). Qed.
Print Assumptions C117_order.

(** One leading star, then one leading ampersand. *)
Definition undressed (s : string) : string := trim_prefix "&" (trim_prefix "*" s).
Lemma undressed_at s p : undressed (s +:+ String "@" p) = undressed s +:+ String "@" p.
Proof.
  unfold undressed, trim_prefix. destruct s as [|c s]; [done|]. cbn -[String.append].
  rewrite sapp_cons. cbn -[String.append].
  destruct (bool_decide ("*"%char = c)) eqn:E; cbn -[String.append].
  - destruct s as [|d s]; [done|]. rewrite sapp_cons. cbn -[String.append].
    destruct (bool_decide ("&"%char = d)); cbn -[String.append]; by rewrite ?sapp_cons.
  - destruct (bool_decide ("&"%char = c)); cbn -[String.append]; by rewrite ?sapp_cons.
Qed.
(** Where positions are known and hold no "@", arguments with the same identifier have the same position, and the same text but for a leading star or
    ampersand. *)
Theorem C117_position range a b : at_pos (a_texts a) ≠ "" → at_pos (a_texts b) ≠ "" →
  contains_byte "@" (at_pos (a_texts a)) = false → contains_byte "@" (at_pos (a_texts b)) = false → made_id range a = made_id range b →
  at_pos (a_texts a) = at_pos (a_texts b) ∧
  undressed ((arg_id range "." a).1 +:+ (arg_id range "." a).2) = undressed ((arg_id range "." b).1 +:+ (arg_id range "." b).2).
Proof.
  intros Ha Hb Na Nb E. unfold made_id in E. destruct (arg_id range "." a) as [i p], (arg_id range "." b) as [j q]. cbn [fst snd].
  rewrite !decide_False in E by done. change ("@" +:+ ?s) with (String "@" s) in E. rewrite <- !sapp_assoc in E.
  pose proof (undressed_at (i +:+ p) (at_pos (a_texts a))) as Ua. pose proof (undressed_at (j +:+ q) (at_pos (a_texts b))) as Ub.
  unfold undressed in *. rewrite Ua, Ub in E. apply split_last_inj in E as [E1 E2]; [|done..]. by split.
Qed.
Print Assumptions C117_position.

Definition no_mark (s : string) : Prop := has_prefix "*" s = false ∧ has_prefix "&" s = false.
Lemma no_mark_id s : no_mark s → undressed s = s.
Proof. intros [H1 H2]. unfold undressed, trim_prefix. by rewrite H1, H2. Qed.
Lemma no_mark_app s t : s ≠ "" → no_mark s → no_mark (s +:+ t).
Proof. intros Hs [H1 H2]. destruct s as [|c s]; [done|]. split; cbn in *; by rewrite ?H1, ?H2. Qed.
Lemma pos_strip s : strip_to_base (if decide (s = "") then "" else "@" +:+ s) = "".
Proof. by destruct (decide (s = "")). Qed.

(** The parameters shown are those of some argument of the tree, or none. *)
Definition bracketed (s : string) : Prop := s = "" ∨ ∃ t, s = "[" +:+ t.
Lemma params_bracketed range m : bracketed (params_text range m).
Proof. unfold params_text. destruct (range m); [by left|]. right. by eexists. Qed.
Lemma inner_bracketed s t : bracketed s → bracketed t → bracketed (inner_or s t).
Proof. unfold inner_or. by destruct (decide (s = "")). Qed.
Lemma id_bracketed range : ∀ sep a, bracketed (arg_id range sep a).2.
Proof.
  fix id_bracketed 2. intros sep a. destruct a as [k t own edge x fn sel recv]. pose proof (params_bracketed range (edge ∪ own)) as P. cbn [arg_id]. destruct k; try done.
  - repeat case_decide; done.
  - destruct x as [x|]; [|done]. pose proof (id_bracketed "/" x) as Q. destruct (arg_id range "/" x). by apply inner_bracketed.
  - destruct fn as [f|]; [|done]. pose proof (id_bracketed "." f) as Q. destruct (arg_id range "." f). by apply inner_bracketed.
  - destruct fn as [f|]; [|done]. pose proof (id_bracketed "." f) as Q. destruct (arg_id range "." f). by apply inner_bracketed.
  - destruct x as [x|]; [|by left]. pose proof (id_bracketed "/" x) as Q. destruct (arg_id range "/" x). by apply inner_bracketed.
  - destruct x as [x|]; [|by left]. pose proof (id_bracketed "/" x) as Q. destruct (arg_id range "/" x). by apply inner_bracketed.
  - destruct x as [x|]; [|by left]. pose proof (id_bracketed "/" x) as Q. destruct (arg_id range "/" x). by apply inner_bracketed.
Qed.
Lemma strip_tail s p : bracketed s → strip_to_base (s +:+ (if decide (p = "") then "" else "@" +:+ p)) = "".
Proof. intros [-> | [t ->]]; [apply pos_strip|done]. Qed.
(** The identifier without its type parameters and position is the text before them, where that holds no mark and no bracket. *)
Lemma strip_made range a s : (arg_id range "." a).1 = s → s ≠ "" → no_mark s → undecorated s → strip_to_base (made_id range a) = s.
Proof.
  intros <- Hn Hm Hu. unfold made_id. pose proof (id_bracketed range "." a) as Q. destruct (arg_id range "." a) as [i p]. cbn [fst snd] in *.
  fold (undressed (i +:+ p +:+ (if decide (at_pos (a_texts a) = "") then "" else "@" +:+ at_pos (a_texts a)))).
  rewrite no_mark_id by (by apply no_mark_app). rewrite strip_undecorated by done. rewrite strip_tail by done. apply sapp_nil.
Qed.
(** The identifiers of a function named, and of a method taken as a value, lead to the function: without type parameters and position they are its BaseID. *)
Theorem C117_function range a c : ordinary c → ci_recv c = "" → ci_pkg c ≠ "" → no_mark (ci_pkg c) →
  a_kind a = AIdent ∨ a_kind a = AFuncLit → at_pkg (a_texts a) = ci_pkg c → at_name (a_texts a) = ci_name c →
  strip_to_base (made_id range a) = base_id c.
Proof.
  intros Ho Hr Hp Hm K Ep En. pose proof (base_undecorated c Ho) as Hu.
  assert (base_id c = ci_pkg c +:+ "." +:+ ci_name c) as Eb.
  { rewrite base_raw by (by destruct Hm). by rewrite decide_True. }
  apply strip_made; [|rewrite Eb; by destruct (ci_pkg c)|rewrite Eb; by apply no_mark_app|done].
  rewrite Eb, <- Ep, <- En. destruct a as [k t own edge x fn sel recv]. cbn [a_kind a_texts] in *.
  destruct K as [-> | ->]; cbn [arg_id]; [|done]. rewrite decide_False by (intros [_ ?]; done). rewrite decide_True by congruence. done.
Qed.
Print Assumptions C117_function.
Theorem C117_method range t own edge x fn selp rname c : ordinary c → ci_recv c ≠ "" → has_prefix "*" rname = false → (ci_recv c = rname ∨ ci_recv c = "*" +:+ rname) → rname ≠ "" →
  ci_pkg c ≠ "" → no_mark (ci_pkg c) →
  strip_to_base (made_id range (AArg ASelector t own edge (Some x) fn (selp, ci_name c) (Some (ci_pkg c, rname)))) = base_id c.
Proof.
  intros Ho Hr Hs Er Hn Hp Hm. pose proof (base_undecorated c Ho) as Hu.
  assert (base_id c = ci_pkg c +:+ "." +:+ rname +:+ "." +:+ ci_name c) as Eb.
  { rewrite base_raw by (by destruct Hm). rewrite decide_False by done. unfold bare_recv. destruct Er as [-> | ->]; [by rewrite Hs|]. done. }
  apply strip_made; [|rewrite Eb; by destruct (ci_pkg c)|rewrite Eb; by apply no_mark_app|done].
  rewrite Eb. cbn [arg_id]. destruct (arg_id range "/" x) as [i p]. cbn [fst snd].
  rewrite (decide_True (P := ci_pkg c ≠ "" ∧ rname ≠ "")) by done. destruct (decide _); by rewrite !sapp_assoc.
Qed.
Print Assumptions C117_method.
(** A function of another package, taken by its package's name. *)
Theorem C117_imported range t own edge xt xo xe xx xf xs xr fn c : ordinary c → ci_recv c = "" → ci_pkg c ≠ "" → no_mark (ci_pkg c) →
  at_type xt = "" → at_pkg xt ≠ "" →
  strip_to_base (made_id range (AArg ASelector t own edge (Some (AArg AIdent xt xo xe xx xf xs xr)) fn (ci_pkg c, ci_name c) None)) = base_id c.
Proof.
  intros Ho Hr Hp Hm Ht Hx. pose proof (base_undecorated c Ho) as Hu.
  assert (base_id c = ci_pkg c +:+ "." +:+ ci_name c) as Eb.
  { rewrite base_raw by (by destruct Hm). by rewrite decide_True. }
  apply strip_made; [|rewrite Eb; by destruct (ci_pkg c)|rewrite Eb; by apply no_mark_app|done].
  rewrite Eb. cbn [arg_id a_texts]. rewrite (decide_False (P := at_type xt ≠ "" ∧ _)) by (intros [? _]; done).
  rewrite (decide_True (P := at_pkg xt ≠ "")) by done. rewrite Ht. done.
Qed.
Print Assumptions C117_imported.

Lemma undressed_bracket s p : undressed (s +:+ String "[" p) = undressed s +:+ String "[" p.
Proof.
  unfold undressed, trim_prefix. destruct s as [|c s]; [done|]. rewrite sapp_cons. cbn -[String.append].
  destruct (bool_decide ("*"%char = c)) eqn:E; cbn -[String.append].
  - destruct s as [|d s]; [done|]. rewrite sapp_cons. cbn -[String.append]. destruct (bool_decide ("&"%char = d)); cbn -[String.append]; by rewrite ?sapp_cons.
  - destruct (bool_decide ("&"%char = c)); cbn -[String.append]; by rewrite ?sapp_cons.
Qed.
Lemma strip_cut s t : strip_to_base t = "" → strip_to_base (s +:+ t) = strip_to_base s.
Proof.
  intros H. unfold strip_to_base in *. rewrite take_until_app. destruct (str_any _ s) eqn:E; [done|]. rewrite H, take_until_none by done. apply sapp_nil.
Qed.
Lemma strip_made_text range a : strip_to_base (made_id range a) = strip_to_base (undressed (arg_id range "." a).1).
Proof.
  unfold made_id. pose proof (id_bracketed range "." a) as Q. destruct (arg_id range "." a) as [i p]. cbn [fst snd] in *.
  fold (undressed (i +:+ p +:+ (if decide (at_pos (a_texts a) = "") then "" else "@" +:+ at_pos (a_texts a)))).
  destruct Q as [-> | [t ->]].
  - change ("" +:+ ?s) with s. destruct (decide (at_pos (a_texts a) = "")); [by rewrite sapp_nil|]. change ("@" +:+ ?s) with (String "@" s). rewrite undressed_at. by apply strip_cut.
  - change ("[" +:+ t) with (String "[" t). rewrite sapp_cons, undressed_bracket. by apply strip_cut.
Qed.
(** A call, and a conversion, lead to what their function leads to. *)
Theorem C117_call range k t own edge x f sel recv : k = ACall ∨ k = AConversion →
  strip_to_base (made_id range (AArg k t own edge x (Some f) sel recv)) = strip_to_base (made_id range f).
Proof.
  intros K. rewrite !strip_made_text. assert ((arg_id range "." (AArg k t own edge x (Some f) sel recv)).1 = (arg_id range "." f).1) as ->; [|done].
  destruct K as [-> | ->]; cbn [arg_id]; by destruct (arg_id range "." f).
Qed.
Print Assumptions C117_call.

(** The operand an argument is written around: the function of a call or conversion, and the X of the others that have one. *)
Definition operand (a : aarg) : option aarg :=
  let 'AArg k _ _ _ x fn _ _ := a in
  match k with ACall | AConversion => fn | ASelector | AUnary | AComposite | AIndex => x | AIdent | ALiteral | AFuncLit | AElse => None end.
(** [within b a]: b is a or lies within it, down the operands. *)
Inductive within : aarg → aarg → Prop :=
| within_self a : within a a
| within_operand a b c : operand a = Some b → within c b → within c a.
(** An argument that has to have an X and has none shows nothing. *)
Definition headless (a : aarg) : Prop := (a_kind a = AUnary ∨ a_kind a = AComposite ∨ a_kind a = AIndex) ∧ operand a = None.
#[global] Instance headless_dec a : Decision (headless a). Proof. unfold headless. destruct (operand a); [right; by intros [_ ?]|]. destruct (a_kind a); first [by left; auto|by right; intros [[?|[?|?]] _]]. Qed.
Lemma params_empty range m : ranges range → params_text range m = "" ↔ m = ∅.
Proof.
  intros H. unfold params_text. pose proof (H m) as P. split.
  - destruct (range m) as [|p l] eqn:E; [|done]. intros _. apply map_to_list_empty_iff. by apply Permutation_nil in P.
  - intros ->. rewrite map_to_list_empty in P. symmetry in P. apply Permutation_nil in P. by rewrite P.
Qed.
Lemma shown_step range sep a : (arg_id range sep a).2 =
  match operand a with
  | Some b => inner_or (arg_id range (if decide (a_kind a = ACall ∨ a_kind a = AConversion) then "." else "/") b).2 (params_text range (a_params a))
  | None => if decide (headless a) then "" else params_text range (a_params a)
  end.
Proof.
  destruct a as [k t own edge x fn sel recv]. unfold a_params. cbn [a_kind operand a_edge a_own arg_id].
  destruct k; try destruct x as [x|]; try destruct fn as [f|];
    repeat first [rewrite (decide_True (P := _ ∨ _)) by auto | rewrite (decide_False (P := _ ∨ _)) by (by intros [|])
      | rewrite (decide_True (P := headless _)) by (split; cbn; auto) | rewrite (decide_False (P := headless _)) by (by intros [[?|[?|?]] _]) ];
    try destruct (arg_id range "/" x); try destruct (arg_id range "." f); repeat case_decide; done.
Qed.
Definition contributes (a : aarg) : Prop := a_params a ≠ ∅ ∧ ¬ headless a.
Definition shown_from (range : gmap string string → list (string * string)) (a : aarg) (s : string) : Prop :=
  (s = "" ∧ ∀ c, within c a → ¬ contributes c) ∨
  (∃ b, within b a ∧ contributes b ∧ (∀ o c, operand b = Some o → within c o → ¬ contributes c) ∧ s = params_text range (a_params b)).
Lemma shown_once range (H : ranges range) a : (∀ b sep, operand a = Some b → shown_from range b (arg_id range sep b).2) → ∀ sep, shown_from range a (arg_id range sep a).2.
Proof.
  intros IH sep. rewrite shown_step. destruct (operand a) as [o|] eqn:E.
  - specialize (IH o (if decide (a_kind a = ACall ∨ a_kind a = AConversion) then "." else "/") eq_refl).
    destruct IH as [[E1 H1]|(b & W & C & D & E1)]; rewrite E1.
    + unfold inner_or. rewrite decide_True by done. destruct (decide (a_params a = ∅)) as [E2|E2].
      * left. split; [by apply params_empty|]. intros c W. inversion W as [|? b' ? Eb W']; subst; [by intros [? _]|]. rewrite E in Eb. injection Eb as <-. by apply H1.
      * right. exists a. split; [constructor|]. split; [split; [done|]; by intros [_ ?]; congruence|]. split; [|done]. intros o' c Eo W. rewrite E in Eo. injection Eo as <-. by apply H1.
    + right. exists b. split; [by eapply within_operand|]. split; [done|]. split; [done|]. unfold inner_or. rewrite decide_False; [done|]. rewrite params_empty by done. by destruct C.
  - destruct (decide (headless a)) as [Hh|Hh].
    + left. split; [done|]. intros c W. inversion W as [|? b' ? Eb W']; subst; [by intros [_ ?]|congruence].
    + destruct (decide (a_params a = ∅)) as [E2|E2].
      * left. split; [by apply params_empty|]. intros c W. inversion W as [|? b' ? Eb W']; subst; [by intros [? _]|congruence].
      * right. exists a. split; [constructor|]. split; [done|]. split; [|done]. intros o c Eo. congruence.
Qed.
Lemma shown_all range (H : ranges range) : ∀ a sep, shown_from range a (arg_id range sep a).2.
Proof.
  fix shown_all 1. intros a. apply shown_once; [done|]. destruct a as [k t own edge x fn sel recv]. destruct x as [x|], fn as [f|]; intros b sep E;
    destruct k; cbn in E; try discriminate E; injection E as <-; by apply shown_all.
Qed.
(** The type parameters in an identifier are those of the innermost operand that has any. *)
Theorem C117_params range a : ranges range → shown_from range a (arg_id range "." a).2.
Proof. intros H. by apply shown_all. Qed.
Print Assumptions C117_params.
(** The parameters of the edge go before the argument's own of the same name; the others are kept. *)
Theorem C117_edge a p v : a_params a !! p = Some v ↔ a_edge a !! p = Some v ∨ (a_edge a !! p = None ∧ a_own a !! p = Some v).
Proof. unfold a_params. rewrite lookup_union_Some_raw. done. Qed.
Print Assumptions C117_edge.

(** Once an argument has an identifier it keeps it, however the argument changes. *)
Theorem C117_kept range l i j x y : answers range "" l !! i = Some x → answers range "" l !! j = Some y → x ≠ "" → i ≤ j → x = y.
Proof.
  assert (∀ l c, c ≠ "" → ∀ k z, answers range c l !! k = Some z → z = c) as Hc.
  { clear. induction l as [|a l IH]; intros c Hn [|k] z E; cbn in E; try done; unfold ask_id in E; rewrite decide_False in E by done; [by injection E|by apply (IH c Hn k)]. }
  enough (∀ l c i j, answers range c l !! i = Some x → answers range c l !! j = Some y → x ≠ "" → i ≤ j → x = y) as G by apply G.
  clear -Hc. intros l. induction l as [|a l IH]; intros c i j Ei Ej Hn Hij; [done|]. destruct i as [|i]; cbn in Ei.
  - injection Ei as Ei. destruct j as [|j]; cbn in Ej; [congruence|]. rewrite Ei in Ej. symmetry. by apply (Hc l x Hn j).
  - destruct j as [|j]; [lia|]. cbn in Ej. eapply (IH _ i j); [exact Ei|exact Ej|done|lia].
Qed.
Print Assumptions C117_kept.
(** So type parameters that an edge gets later are missing from the identifier: it is not that of the argument as it is. *)
Definition plain (name pos : string) (edge : gmap string string) : aarg := AArg AIdent (ATexts "" "main" name "" "" pos) ∅ edge None None ("", "") None.
Theorem C117_stale_refuted : ∃ l a, last l = Some a ∧ last (answers map_to_list "" l) ≠ Some (made_id map_to_list a) ∧
  last (answers map_to_list "" l) = Some "main.decode@h.go:4:2" ∧ made_id map_to_list a = "main.decode[T=main.User]@h.go:4:2".
Proof.
  exists [plain "decode" "h.go:4:2" ∅; plain "decode" "h.go:4:2" {["T" := "main.User"]}], (plain "decode" "h.go:4:2" {["T" := "main.User"]}).
  split; [done|]. split; [|split; by vm_compute]. intros E. vm_compute in E. discriminate E.
Qed.
Print Assumptions C117_stale_refuted.

(** An argument written as a text: its identifier is the text, its type parameters in brackets if any, and its position if known, but for a leading star
    or ampersand. *)
Definition written (range : gmap string string → list (string * string)) (a : aarg) (text : string) : Prop :=
  ∃ ps pos, bracketed ps ∧ made_id range a = undressed (text +:+ ps +:+ pos) ∧ (at_pos (a_texts a) = "" ∧ pos = "" ∨ at_pos (a_texts a) ≠ "" ∧ pos = "@" +:+ at_pos (a_texts a)).
Lemma written_id range a : written range a (arg_id range "." a).1.
Proof.
  unfold written, made_id. pose proof (id_bracketed range "." a) as Q. destruct (arg_id range "." a) as [i p]. exists p, (if decide (at_pos (a_texts a) = "") then "" else "@" +:+ at_pos (a_texts a)).
  split; [done|]. split; [done|]. destruct (decide (at_pos (a_texts a) = "")); auto.
Qed.
(** Arguments without operand: a literal is written as its value, one of no kind told apart as its text, a selector of nothing as its name. *)
Theorem C117_leaf range a : operand a = None →
  (a_kind a = ALiteral → written range a (at_value (a_texts a))) ∧ (a_kind a = AElse → written range a (at_raw (a_texts a))) ∧
  (a_kind a = ACall → written range a "call") ∧ (a_kind a = AConversion → written range a "type_conversion") ∧
  (∀ t own edge fn sel recv, a = AArg ASelector t own edge None fn sel recv → written range a sel.2) ∧
  (a_kind a = AIdent → at_pkg (a_texts a) = "" → written range a (at_name (a_texts a))) ∧ (headless a → written range a "").
Proof.
  intros Ho. pose proof (written_id range a) as W. destruct a as [k t own edge x fn sel recv]. cbn [a_kind a_texts operand] in *.
  split; [|split; [|split; [|split; [|split; [|split]]]]].
  - by intros ->.
  - by intros ->.
  - intros ->. by subst fn.
  - intros ->. by subst fn.
  - by intros ? ? ? ? ? ? [= -> -> -> -> -> -> -> ->].
  - intros -> Hp. cbn [arg_id] in W. destruct (decide (at_type t ≠ "" ∧ "." = "/")) as [[_ ?]|_]; [done|]. destruct (decide (at_pkg t ≠ "")); [done|exact W].
  - intros [[K|[K|K]] _]; cbn in K; subst k; by subst x.
Qed.
Print Assumptions C117_leaf.
(** Around a variable: a unary expression is written as its operator and the type of the variable, a composite literal and an index as that type. Where
    the type is not known, the package of the expression stands for it. *)
Theorem C117_around range k t own edge x fn sel recv what : a_kind x = AIdent →
  (at_type (a_texts x) ≠ "" ∧ what = at_type (a_texts x) ∨ at_type (a_texts x) = "" ∧ at_pkg (a_texts x) ≠ "" ∧ what = at_pkg t) →
  (k = AUnary → written range (AArg k t own edge (Some x) fn sel recv) (at_value t +:+ what)) ∧
  (k = AComposite ∨ k = AIndex → written range (AArg k t own edge (Some x) fn sel recv) what) ∧
  (k = ASelector → recv = None → at_type (a_texts x) ≠ "" → written range (AArg k t own edge (Some x) fn sel recv) (what +:+ "." +:+ sel.2)).
Proof.
  intros Kx Hw. pose proof (written_id range (AArg k t own edge (Some x) fn sel recv)) as W.
  assert (arg_id range "/" x = (if decide (at_type (a_texts x) = "") then "" else what, params_text range (a_params x))) as E.
  { destruct x as [kx tx ox ex xx fx sx rx]. cbn in Kx, Hw |- *. subst kx. cbn [arg_id]. destruct Hw as [[Ht ->]|(Ht & Hp & ->)].
    - rewrite decide_True by done. by rewrite decide_False.
    - rewrite decide_False by (by intros [? _]). rewrite (decide_True (P := at_pkg tx ≠ "")) by done. by rewrite !decide_True. }
  split; [|split].
  - intros ->. cbn [arg_id] in W. rewrite E in W. destruct Hw as [[Ht ->]|(Ht & Hp & ->)].
    + by rewrite (decide_False (P := at_type (a_texts x) = "")), (decide_False (P := at_type (a_texts x) = "")) in W.
    + by rewrite (decide_True (P := at_type (a_texts x) = "")), decide_True in W.
  - intros K. assert ((arg_id range "." (AArg k t own edge (Some x) fn sel recv)).1 = what) as <-; [|done].
    destruct K as [-> | ->]; cbn [arg_id]; rewrite E; cbn [fst]; destruct Hw as [[Ht ->]|(Ht & Hp & ->)];
      first [by rewrite (decide_True (P := at_type (a_texts x) = "")), decide_True | by rewrite (decide_False (P := at_type (a_texts x) = "")), (decide_False (P := at_type (a_texts x) = ""))].
  - intros -> -> Ht. cbn [arg_id] in W. rewrite E in W. destruct Hw as [[_ ->]|(? & _)]; [|done].
    by rewrite !(decide_False (P := at_type (a_texts x) = "")) in W.
Qed.
Print Assumptions C117_around.
(** What is selected from is known by its type only: the name of the variable does not matter. *)
Definition named (n : string) (a : aarg) : aarg :=
  let 'AArg k t own edge x fn sel recv := a in AArg k (ATexts (at_type t) (at_pkg t) n (at_value t) (at_raw t) (at_pos t)) own edge x fn sel recv.
Theorem C117_variable range k t own edge x fn sel recv n : a_kind x = AIdent → at_type (a_texts x) ≠ "" ∨ at_pkg (a_texts x) ≠ "" →
  k = ASelector ∨ k = AUnary ∨ k = AComposite ∨ k = AIndex →
  made_id range (AArg k t own edge (Some (named n x)) fn sel recv) = made_id range (AArg k t own edge (Some x) fn sel recv).
Proof.
  intros Kx Ht K. unfold made_id.
  assert (arg_id range "/" (named n x) = arg_id range "/" x) as E.
  { destruct x as [kx tx ox ex xx fx sx rx]. cbn in Kx, Ht. subst kx. cbn [named arg_id at_type at_pkg].
    destruct (decide (at_type tx ≠ "" ∧ "/" = "/")) as [?|N]; [done|]. destruct Ht as [Ht|Ht]; [by destruct N|]. by rewrite !(decide_True (P := at_pkg tx ≠ "")). }
  assert (at_type (a_texts (named n x)) = at_type (a_texts x)) as E2 by (by destruct x).
  destruct K as [-> |[-> |[-> | ->]]]; cbn [arg_id]; rewrite E, ?E2; done.
Qed.
Print Assumptions C117_variable.
(** Two arguments that are not the same, without positions: the same identifier. *)
Definition variable (name : string) : aarg := AArg AIdent (ATexts "*main.Server" "main" name "" "" "") ∅ ∅ None None ("", "") None.
Definition method_of (x : aarg) (pos : string) : aarg := AArg ASelector (ATexts "func()" "main" "" "" "" pos) ∅ ∅ (Some x) None ("main", "Get") (Some ("main", "Server")).
Theorem C117_distinct_refuted : ∃ a b, a ≠ b ∧ made_id map_to_list a = made_id map_to_list b ∧ made_id map_to_list a = "main.Server.Get".
Proof. exists (method_of (variable "users") ""), (method_of (variable "orders") ""). split; [by intros [=]|]. split; by vm_compute. Qed.
Print Assumptions C117_distinct_refuted.
(** Positions with an "@", as those in the module cache have: text and position are not told apart. *)
Theorem C117_position_refuted : ∃ a b, at_pos (a_texts a) ≠ "" ∧ at_pos (a_texts b) ≠ "" ∧ at_pos (a_texts a) ≠ at_pos (a_texts b) ∧ made_id map_to_list a = made_id map_to_list b.
Proof.
  exists (AArg ALiteral (ATexts "" "" "" "x" "" "/mod/chi@v5/mux.go:1:1") ∅ ∅ None None ("", "") None),
    (AArg ALiteral (ATexts "" "" "" "x@/mod/chi" "" "v5/mux.go:1:1") ∅ ∅ None None ("", "") None). repeat split; try done; by vm_compute.
Qed.
Print Assumptions C117_position_refuted.

(** A method value, a function of an imported package, one of this package with a type argument, and a call of it. *)
Example method_id : made_id map_to_list (method_of (variable "s") "h.go:3:9") = "main.Server.Get@h.go:3:9" ∧
  strip_to_base (made_id map_to_list (method_of (variable "s") "h.go:3:9")) = base_id (CallIdent "main" "Get" "*Server" "" []).
Proof. split; by vm_compute. Qed.
Example imported_id : strip_to_base (made_id map_to_list (AArg ASelector (ATexts "func()" "main" "" "" "" "h.go:5:2") ∅ ∅
    (Some (AArg AIdent (ATexts "" "example.com/app/users" "users" "" "" "") ∅ ∅ None None ("", "") None)) None ("example.com/app/users", "List") None)) = "example.com/app/users.List".
Proof. by vm_compute. Qed.
Example generic_id_of_call :
  made_id map_to_list (AArg ACall (ATexts "" "" "" "" "" "h.go:9:1") {["U" := "int"]} ∅ None (Some (plain "decode" "h.go:9:1" {["T" := "main.User"]})) ("", "") None) =
    "main.decode[T=main.User]@h.go:9:1".
Proof. by vm_compute. Qed.
Example edge_over_own : params_text map_to_list (a_params (AArg ACall (ATexts "" "" "" "" "" "") (<["T" := "any"]> {["U" := "int"]}) {["T" := "main.User"]} None None ("", "") None)) = "[T=main.User,U=int]".
Proof. by vm_compute. Qed.
Example ordinary_list : ordinary (CallIdent "example.com/app/users" "List" "" "" []) ∧ no_mark "example.com/app/users".
Proof. by repeat split. Qed.
Example pointer_id : made_id map_to_list (AArg AUnary (ATexts "" "main" "" "&" "" "h.go:7:4") ∅ ∅
    (Some (AArg AIdent (ATexts "main.Req" "main" "req" "" "" "") ∅ ∅ None None ("", "") None)) None ("", "") None) = "main.Req@h.go:7:4".
Proof. by vm_compute. Qed.
