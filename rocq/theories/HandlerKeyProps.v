(** * C120: the handler of an endpoint in the call graph. *)
From Coq Require Import Ascii Lia.
From stdpp Require Import sorting.
From stdpp Require Import base list strings gmap.
From Verif Require Import StrLib StrSplit StrOrder StrSub PairModel PairProofs MountProofs DecLib HandlerKeyModel.

(** A part of an identifier: no dot, no slash. *)
Definition word (s : string) : Prop := contains_byte "." s = false ∧ contains_byte "/" s = false.
Lemma split_rest dir (Hd : dir = "" ∨ ∃ d, dir = d +:+ "/") r : contains_byte "/" r = false →
  (match split_last "/" (dir +:+ r) with Some (a, b) => (a +:+ "/", b) | None => ("", dir +:+ r) end) = (dir, r).
Proof.
  intros Hr. destruct Hd as [-> |[d ->]].
  - change ("" +:+ r) with r. by rewrite split_last_none.
  - rewrite sapp_assoc. change ("/" +:+ r) with (String "/" r). by rewrite split_last_app.
Qed.
Lemma word_app_slash a b : contains_byte "/" a = false → contains_byte "/" b = false → contains_byte "/" (a +:+ "." +:+ b) = false.
Proof. unfold contains_byte. intros Ha Hb. rewrite !str_any_app, Ha, Hb. done. Qed.
(** The identifier of a function, and of a method: package and name, and the receiver, where the last element of the package's path has no dot. *)
Theorem C120_split dir p n r : dir = "" ∨ (∃ d, dir = d +:+ "/") → word p → word n → word r →
  split_op (dir +:+ p +:+ "." +:+ n) = (dir +:+ p, n) ∧ split_op (dir +:+ p +:+ "." +:+ r +:+ "." +:+ n) = (dir +:+ p, n) ∧
  split_op3 (dir +:+ p +:+ "." +:+ n) = (dir +:+ p, "", n) ∧ split_op3 (dir +:+ p +:+ "." +:+ r +:+ "." +:+ n) = (dir +:+ p, r, n).
Proof.
  intros Hd [Hp Hp'] [Hn Hn'] [Hr Hr'].
  assert (split_byte "." (p +:+ "." +:+ n) = [p; n]) as E1. { change ("." +:+ n) with (String "." n). by rewrite split_byte_app, !split_byte_none. }
  assert (split_byte "." (p +:+ "." +:+ r +:+ "." +:+ n) = [p; r; n]) as E2.
  { change ("." +:+ r +:+ "." +:+ n) with (String "." (r +:+ String "." n)). by rewrite !split_byte_app, !split_byte_none. }
  unfold split_op, split_op3. rewrite !split_rest by (done || by repeat apply word_app_slash). rewrite E1, E2. done.
Qed.
Print Assumptions C120_split.

(** An operation that calls something itself is its own handler, with the position of its first call. *)
Theorem C120_direct md op pos l l' : hm_callers md = l ++ (op, pos) :: l' → op ∉ l.*1 → handler_key md op = (op, pos).
Proof.
  intros E N. unfold handler_key. rewrite E, filter_app, filter_cons_True by done.
  assert (filter (λ c : string * string, c.1 = op) l = []) as ->; [|done]. destruct (filter _ l) as [|x xs] eqn:F; [done|]. exfalso. apply N. assert (x ∈ filter (λ c : string * string, c.1 = op) l) as H by (rewrite F; left).
  apply elem_of_list_filter in H as [<- H]. apply elem_of_list_fmap. by exists x.
Qed.
Print Assumptions C120_direct.
(** The candidates are the methods and functions of that name in the package, whatever the receiver. *)
Theorem C120_candidate_iff md dir p n r k : dir = "" ∨ (∃ d, dir = d +:+ "/") → word p → word n → word r → p ≠ "" → n ≠ "" →
  k ∈ (candidates md (dir +:+ p +:+ "." +:+ r +:+ "." +:+ n)).1 ↔ ∃ d, d ∈ hm_decls md (dir +:+ p) ∧ hd_name d = n ∧
    (hd_type d = None ∧ k = dir +:+ p +:+ "." +:+ n ∨ ∃ t, hd_type d = Some t ∧ k = dir +:+ p +:+ "." +:+ t +:+ "." +:+ n).
Proof.
  intros Hd Hp Hn Hr Np Nn. destruct (C120_split dir p n r Hd Hp Hn Hr) as (_ & E & _). unfold candidates. rewrite E.
  rewrite decide_False by (intros [H|H]; [apply sapp_eq_nil in H as [_ H]|]; done). cbn [fst]. rewrite elem_of_list_fmap. split.
  - intros (d & -> & [En Hin]%elem_of_list_filter). exists d. split; [done|]. split; [done|]. unfold decl_key. rewrite En. destruct (hd_type d) as [t|]; [right; exists t|left]; by rewrite ?sapp_assoc.
  - intros (d & Hin & En & H). exists d. split; [|by apply elem_of_list_filter]. unfold decl_key. rewrite En. destruct H as [[-> ->]|(t & -> & ->)]; by rewrite ?sapp_assoc.
Qed.
Print Assumptions C120_candidate_iff.
(** Two paths name the same file exactly if they are one, or one ends with the other behind a slash. *)
(** Two paths name the same file exactly if both are there and they are one, or one ends with the other behind a slash. *)
Definition one_file (a b : string) : Prop := a ≠ "" ∧ b ≠ "" ∧ (a = b ∨ (∃ d, a = d +:+ "/" +:+ b) ∨ ∃ d, b = d +:+ "/" +:+ a).
Theorem C120_same_file_iff a b : same_file a b = true ↔ one_file a b.
Proof.
  unfold same_file, one_file. rewrite !andb_true_iff, !orb_true_iff, !negb_true_iff, !bool_decide_eq_false, bool_decide_eq_true, !has_suffix_spec. tauto.
Qed.
Print Assumptions C120_same_file_iff.
(** A literal that calls something, in the file, at the line or below it. *)
Definition below (md : hmeta) (file : string) (line : nat) (k : string) (l : nat) : Prop := ∃ f, hm_at md k = (f, l) ∧ one_file file f ∧ line ≤ l.
Definition nearest (md : hmeta) (file : string) (line : nat) (P : string → Prop) (k : string) (l : nat) : Prop :=
  P k ∧ below md file line k l ∧ ∀ k' l', P k' → below md file line k' l' → l ≤ l' ∧ (l' = l → string_le k k').
Lemma closer_spec md file line l : StronglySorted string_le l →
  match foldl (closer md file line) None l with
  | Some (k, n) => nearest md file line (.∈ l) k n
  | None => ∀ k n, k ∈ l → ¬ below md file line k n
  end.
Proof.
  induction l as [|x l IH] using rev_ind; intros Hs; [intros k n []%elem_of_nil|].
  specialize (IH (StronglySorted_app_inv_l _ _ _ Hs)). rewrite foldl_snoc. unfold closer at 1. destruct (hm_at md x) as [f m] eqn:Em.
  destruct (same_file file f && bool_decide (line ≤ m)) eqn:E.
  - apply andb_true_iff in E as [E1%C120_same_file_iff E2%bool_decide_eq_true]. assert (below md file line x m) as Bx by by exists f. cbn [andb].
    destruct (foldl (closer md file line) None l) as [[k n]|] eqn:Ef.
    + destruct IH as (Hk & Bk & Hmin). case_bool_decide as Hlt.
      * split; [apply elem_of_app; right; apply elem_of_list_here|]. split; [done|]. intros k' l' [Hin| ->%elem_of_list_singleton]%elem_of_app B.
        -- destruct (Hmin _ _ Hin B) as [H _]. split; [lia|]. intros ->. lia.
        -- destruct B as (f' & Ef' & _). rewrite Em in Ef'. injection Ef' as -> ->. split; [done|]. intros _. apply string_le_cases. by right.
      * split; [apply elem_of_app; by left|]. split; [done|]. intros k' l' [Hin| ->%elem_of_list_singleton]%elem_of_app B; [by apply Hmin|].
        destruct B as (f' & Ef' & _). rewrite Em in Ef'. injection Ef' as -> ->. split; [lia|]. intros _. eapply elem_of_StronglySorted_app; [exact Hs|done|apply elem_of_list_here].
    + split; [apply elem_of_app; right; apply elem_of_list_here|]. split; [done|]. intros k' l' [Hin| ->%elem_of_list_singleton]%elem_of_app B; [by destruct (IH k' l' Hin)|].
      destruct B as (f' & Ef' & _). rewrite Em in Ef'. injection Ef' as -> ->. split; [done|]. intros _. apply string_le_cases. by right.
  - assert (∀ n, ¬ below md file line x n) as Nx.
    { intros n (f' & Ef' & H1 & H2). rewrite Em in Ef'. injection Ef' as <- <-. apply C120_same_file_iff in H1. rewrite H1, bool_decide_eq_true_2 in E; done. }
    cbn [andb]. destruct (foldl (closer md file line) None l) as [[k n]|] eqn:Ef.
    + destruct IH as (Hk & Bk & Hmin). split; [apply elem_of_app; by left|]. split; [done|]. intros k' l' [Hin| ->%elem_of_list_singleton]%elem_of_app B; [by apply Hmin|by destruct (Nx l')].
    + intros k n [Hin| ->%elem_of_list_singleton]%elem_of_app; [by apply IH|apply Nx].
Qed.
(** The literal taken for a method is the nearest below it among those of the file that call something, the least key where two share a line. *)
Definition literal (md : hmeta) (k : string) : Prop := k ∈ (hm_callers md).*1 ∧ ∃ a b, k = a +:+ "FuncLit:" +:+ b.
Lemma literal_sorted md k : k ∈ ssort (filter (λ k, str_contains "FuncLit:" k = true) (remove_dups (hm_callers md).*1)) ↔ literal md k.
Proof. rewrite elem_of_ssort, elem_of_list_filter, elem_of_remove_dups, str_contains_spec. unfold literal. tauto. Qed.
Theorem C120_literal_iff md file line k : func_lit md file line = Some k ↔ ∃ l, nearest md file line (literal md) k l.
Proof.
  unfold func_lit. pose proof (closer_spec md file line _ (ssort_sorted (filter (λ k, str_contains "FuncLit:" k = true) (remove_dups (hm_callers md).*1)))) as H.
  destruct (foldl _ _ _) as [[k0 n0]|].
  - destruct H as (H1 & H2 & H3). cbn. split.
    + intros [= ->]. exists n0. split; [by apply literal_sorted|]. split; [done|]. intros k' l' Hl. apply H3. by apply literal_sorted.
    + intros (l & L1 & L2 & L3). apply literal_sorted in H1. destruct (L3 _ _ H1 H2) as [A1 A2]. destruct (H3 k l) as [B1 B2]; [by apply literal_sorted|done|].
      assert (n0 = l) as -> by lia. f_equal. apply (anti_symm string_le); auto.
  - cbn. split; [done|]. intros (l & L1 & L2 & _). exfalso. eapply H; [by apply literal_sorted|done].
Qed.
Print Assumptions C120_literal_iff.
(** The key found has calls, or is the operation's own identifier. *)
Theorem C120_found md op : (handler_key md op).1 ∈ (hm_callers md).*1 ∨ (handler_key md op).1 = op.
Proof.
  assert (∀ f l k, func_lit md f l = Some k → k ∈ (hm_callers md).*1) as HL by (intros f l k (n & [H _] & _)%C120_literal_iff; done).
  unfold handler_key. destruct (head (filter _ (hm_callers md))) as [c|] eqn:E0.
  { apply head_Some_elem_of in E0. apply elem_of_list_filter in E0 as [E _]. by right. }
  destruct (candidates md op) as [keys at']. destruct (head (filter _ keys)) as [k|] eqn:E1.
  { apply head_Some_elem_of in E1. apply elem_of_list_filter in E1 as [E%bool_decide_eq_true _]. by left. }
  destruct (if decide (at'.1 = "") then None else func_lit md at'.1 at'.2) as [k|] eqn:E2.
  { destruct (decide _); [done|]. left. by eapply HL. }
  destruct (interface_handler md op) as [r|] eqn:E3; [|by right]. left. clear E2. unfold interface_handler in E3. destruct (split_op3 op) as [[pkg recv] name].
  case_decide; [done|]. apply head_Some_elem_of in E3. apply elem_of_list_omap in E3 as (i & _ & E). unfold impl_handler in E.
  destruct (split_last "." i) as [[p t]|]; [|done]. case_decide; [done|]. destruct (hm_called md _) eqn:Ec; [injection E as <-; by apply bool_decide_eq_true in Ec|].
  case_decide; [done|]. destruct (func_lit md _ _) as [k|] eqn:Ef; [|done]. injection E as <-. cbn. by eapply HL.
Qed.
Print Assumptions C120_found.

Lemma no_direct md op : op ∉ (hm_callers md).*1 → filter (λ c : string * string, c.1 = op) (hm_callers md) = [].
Proof.
  intros N. destruct (filter _ _) as [|x xs] eqn:F; [done|]. exfalso. apply N. assert (x ∈ filter (λ c : string * string, c.1 = op) (hm_callers md)) as H by (rewrite F; left).
  apply elem_of_list_filter in H as [<- H]. apply elem_of_list_fmap. by exists x.
Qed.
(** Where one method of the package alone has the operation's name and it calls something, it is the handler, at the place it is declared. *)
Theorem C120_only md dir p n r t file line l l' : dir = "" ∨ (∃ d, dir = d +:+ "/") → word p → word n → word r → p ≠ "" → n ≠ "" → file ≠ "" →
  dir +:+ p +:+ "." +:+ r +:+ "." +:+ n ∉ (hm_callers md).*1 → dir +:+ p +:+ "." +:+ t +:+ "." +:+ n ∈ (hm_callers md).*1 →
  hm_decls md (dir +:+ p) = l ++ HDecl (Some t) n file line :: l' → (∀ d, d ∈ l ++ l' → hd_name d ≠ n) →
  handler_key md (dir +:+ p +:+ "." +:+ r +:+ "." +:+ n) = (dir +:+ p +:+ "." +:+ t +:+ "." +:+ n, file +:+ ":" +:+ itoa_nat line).
Proof.
  intros Hd Hp Hn Hr Np Nn Nf Nop Hin El Hl. destruct (C120_split dir p n r Hd Hp Hn Hr) as (_ & E & _). unfold handler_key. rewrite no_direct by done. cbn [head].
  unfold candidates. rewrite E. rewrite decide_False by (intros [H|H]; [apply sapp_eq_nil in H as [_ H]|]; done).
  assert (∀ k, (∀ d, d ∈ k → hd_name d ≠ n) → filter (λ d, hd_name d = n) k = []) as Hk.
  { intros k H. induction k as [|d k IH]; [done|]. rewrite filter_cons_False by (apply H; left). apply IH. intros d' Hd'. apply H. by right. }
  rewrite El, filter_app, filter_cons_True by done. rewrite !Hk by (intros d H; apply Hl, elem_of_app; auto). cbn [app fmap list_fmap omap list_omap hd_file hd_line].
  rewrite decide_False by done. cbn [head from_option id]. unfold decl_key. cbn [hd_type hd_name]. rewrite sapp_assoc.
  rewrite filter_cons_True by (by apply bool_decide_eq_true). cbn [head]. unfold pos_text. cbn [fst snd]. by rewrite decide_False.
Qed.
Print Assumptions C120_only.
(** An operation named after an interface, with no declaration of the name in its package: the method of the first implementer, if it calls something. *)
Theorem C120_interface md dir p n r ip it is : dir = "" ∨ (∃ d, dir = d +:+ "/") → word p → word n → word r → p ≠ "" → n ≠ "" → r ≠ "" →
  dir +:+ p +:+ "." +:+ r +:+ "." +:+ n ∉ (hm_callers md).*1 → (∀ d, d ∈ hm_decls md (dir +:+ p) → hd_name d ≠ n) →
  hm_impls md (dir +:+ p) r = (ip +:+ "." +:+ it) :: is → ip ≠ "" → it ≠ "" → word it → ip +:+ "." +:+ it +:+ "." +:+ n ∈ (hm_callers md).*1 →
  (handler_key md (dir +:+ p +:+ "." +:+ r +:+ "." +:+ n)).1 = ip +:+ "." +:+ it +:+ "." +:+ n.
Proof.
  intros Hd Hp Hn Hr Np Nn Nr Nop Hdecl Himp Nip Nit [Wit _] Hin. destruct (C120_split dir p n r Hd Hp Hn Hr) as (_ & E & _ & E3). unfold handler_key. rewrite no_direct by done. cbn [head].
  unfold candidates. rewrite E. rewrite decide_False by (intros [H|H]; [apply sapp_eq_nil in H as [_ H]|]; done).
  assert (filter (λ d, hd_name d = n) (hm_decls md (dir +:+ p)) = []) as ->.
  { revert Hdecl. generalize (hm_decls md (dir +:+ p)). intros k H. induction k as [|d k IH]; [done|]. rewrite filter_cons_False by (apply H; left). apply IH. intros d' Hd'. apply H. by right. }
  cbn [fmap list_fmap omap list_omap head from_option id fst snd]. change (filter (λ k, hm_called md k = true) []) with (@nil string). cbn [head].
  rewrite (decide_True (P := "" = "")) by done. unfold interface_handler. rewrite E3. rewrite decide_False by (intros [H|[H|H]]; [apply sapp_eq_nil in H as [_ H]| |]; done).
  rewrite Himp. cbn [omap list_omap]. unfold impl_handler at 1. change ("." +:+ it) with (String "." it). rewrite split_last_app by done.
  rewrite decide_False by (intros [H|H]; done). unfold hm_called at 1. rewrite bool_decide_eq_true_2 by done. done.
Qed.
Print Assumptions C120_interface.

Lemma none_named n k : (∀ d, d ∈ k → hd_name d ≠ n) → filter (λ d, hd_name d = n) k = [].
Proof. intros H. induction k as [|d k IH]; [done|]. rewrite filter_cons_False by (apply H; left). apply IH. intros d' Hd'. apply H. by right. Qed.
Lemma none_called md k : (∀ x, x ∈ k → x ∉ (hm_callers md).*1) → filter (λ x, hm_called md x = true) k = [].
Proof.
  intros H. induction k as [|d k IH]; [done|]. rewrite filter_cons_False by (unfold hm_called; rewrite bool_decide_eq_true; apply H; left). apply IH. intros d' Hd'. apply H. by right.
Qed.
(** Where no candidate calls anything, the handler is the literal nearest below the first declaration of the name, at the place of that declaration. *)
Theorem C120_factory md dir p n r d l l' k m : dir = "" ∨ (∃ d, dir = d +:+ "/") → word p → word n → word r → p ≠ "" → n ≠ "" →
  dir +:+ p +:+ "." +:+ r +:+ "." +:+ n ∉ (hm_callers md).*1 → hm_decls md (dir +:+ p) = l ++ d :: l' → hd_name d = n → hd_file d ≠ "" → (∀ e, e ∈ l → hd_name e ≠ n) →
  (∀ x, x ∈ (candidates md (dir +:+ p +:+ "." +:+ r +:+ "." +:+ n)).1 → x ∉ (hm_callers md).*1) → nearest md (hd_file d) (hd_line d) (literal md) k m →
  handler_key md (dir +:+ p +:+ "." +:+ r +:+ "." +:+ n) = (k, hd_file d +:+ ":" +:+ itoa_nat (hd_line d)).
Proof.
  intros Hd Hp Hn Hr Np Nn Nop El En Nf Hl Hc Hk. destruct (C120_split dir p n r Hd Hp Hn Hr) as (_ & E & _).
  assert (func_lit md (hd_file d) (hd_line d) = Some k) as Ek by (apply C120_literal_iff; by exists m).
  unfold handler_key. rewrite no_direct by done. cbn [head]. revert Hc. unfold candidates. rewrite E.
  rewrite decide_False by (intros [H|H]; [apply sapp_eq_nil in H as [_ H]|]; done).
  rewrite El, filter_app, none_named, filter_cons_True by done. cbn [app fst]. intros Hc. rewrite none_called by done. cbn [head omap list_omap].
  rewrite (decide_False (P := hd_file d = "")) by done. cbn [head from_option id fst snd]. rewrite decide_False by done. rewrite Ek. unfold pos_text. cbn [fst snd]. by rewrite decide_False.
Qed.
Print Assumptions C120_factory.
(** The same for an interface: the literal nearest below the method of the first implementer, at the place of that method. *)
Theorem C120_interface_factory md dir p n r ip it is file line k m : dir = "" ∨ (∃ d, dir = d +:+ "/") → word p → word n → word r → p ≠ "" → n ≠ "" → r ≠ "" →
  dir +:+ p +:+ "." +:+ r +:+ "." +:+ n ∉ (hm_callers md).*1 → (∀ d, d ∈ hm_decls md (dir +:+ p) → hd_name d ≠ n) →
  hm_impls md (dir +:+ p) r = (ip +:+ "." +:+ it) :: is → ip ≠ "" → it ≠ "" → word it → ip +:+ "." +:+ it +:+ "." +:+ n ∉ (hm_callers md).*1 →
  hm_method md ip it n = (file, line) → file ≠ "" → nearest md file line (literal md) k m →
  handler_key md (dir +:+ p +:+ "." +:+ r +:+ "." +:+ n) = (k, file +:+ ":" +:+ itoa_nat line).
Proof.
  intros Hd Hp Hn Hr Np Nn Nr Nop Hdecl Himp Nip Nit [Wit _] Nin Em Nf Hk. destruct (C120_split dir p n r Hd Hp Hn Hr) as (_ & E & _ & E3).
  assert (func_lit md file line = Some k) as Ek by (apply C120_literal_iff; by exists m).
  unfold handler_key. rewrite no_direct by done. cbn [head].
  unfold candidates. rewrite E. rewrite decide_False by (intros [H|H]; [apply sapp_eq_nil in H as [_ H]|]; done). rewrite none_named by done.
  cbn [fmap list_fmap omap list_omap head from_option id fst snd]. change (filter (λ k, hm_called md k = true) []) with (@nil string). cbn [head].
  rewrite (decide_True (P := "" = "")) by done. unfold interface_handler. rewrite E3. rewrite decide_False by (intros [H|[H|H]]; [apply sapp_eq_nil in H as [_ H]| |]; done).
  rewrite Himp. cbn [omap list_omap]. unfold impl_handler at 1. change ("." +:+ it) with (String "." it). rewrite split_last_app by done.
  rewrite decide_False by (intros [H|H]; done). unfold hm_called at 1. rewrite bool_decide_eq_false_2 by done. rewrite Em. cbn [fst snd]. rewrite decide_False by done. rewrite Ek.
  cbn. unfold pos_text. cbn [fst snd]. by rewrite decide_False.
Qed.
Print Assumptions C120_interface_factory.

(** Two types of the package [app] with a method [Get]; neither is called by the name the operation has. *)
Definition ex_get (t : string) (l : nat) : hdecl := HDecl (Some t) "Get" "api/h.go" l.
Definition ex_meta (ds : list hdecl) (callers : list string) : hmeta :=
  HMeta ((λ k, (k, "p")) <$> callers) (λ p, if decide (p = "app") then ds else [])
    (λ k, if decide (k = "app.FuncLit:api/h.go:12:9") then ("/src/api/h.go", 12) else if decide (k = "app.FuncLit:api/h.go:30:9") then ("/src/api/h.go", 30) else ("", 0))
    (λ _ _, []) (λ _ _ _, ("", 0)).
(** The same package, its types ranged over in two orders: two handlers for the one operation. *)
Theorem C120_order_refuted : ∃ md md' op, (∀ p, hm_decls md p ≡ₚ hm_decls md' p) ∧ hm_callers md = hm_callers md' ∧
  (handler_key md op).1 = "app.users.Get" ∧ (handler_key md' op).1 = "app.orders.Get".
Proof.
  exists (ex_meta [ex_get "users" 10; ex_get "orders" 20] ["app.orders.Get"; "app.users.Get"]), (ex_meta [ex_get "orders" 20; ex_get "users" 10] ["app.orders.Get"; "app.users.Get"]), "app.Users.Get".
  split; [|by vm_compute]. intros p. cbn. destruct (decide (p = "app")); [apply perm_swap|done].
Qed.
Print Assumptions C120_order_refuted.
(** A method of no calls and no literal is given the literal of a method further down, although its own type is named. *)
Theorem C120_other_literal_refuted : ∃ md, hm_decls md "app" = [HDecl (Some "users") "Get" "api/h.go" 10; HDecl (Some "users") "List" "api/h.go" 25] ∧
  hm_at md "app.FuncLit:api/h.go:30:9" = ("/src/api/h.go", 30) ∧ handler_key md "app.users.Get" = ("app.FuncLit:api/h.go:30:9", "api/h.go:10").
Proof.
  exists (ex_meta [HDecl (Some "users") "Get" "api/h.go" 10; HDecl (Some "users") "List" "api/h.go" 25] ["app.FuncLit:api/h.go:30:9"]). by vm_compute.
Qed.
Print Assumptions C120_other_literal_refuted.
(** A package whose last path element has a dot is cut at it. *)
Theorem C120_dotted_refuted : ∃ pkg name, split_op (pkg +:+ "." +:+ name) ≠ (pkg, name) ∧ split_op3 (pkg +:+ "." +:+ name) = ("gopkg.in/api", "v3", "List").
Proof. exists "gopkg.in/api.v3", "List". split; [intros E; vm_compute in E; discriminate|by vm_compute]. Qed.
Print Assumptions C120_dotted_refuted.

Example C120_split_ex : split_op3 "example.com/app.Users.Get" = ("example.com/app", "Users", "Get") ∧ word "app" ∧ word "Users" ∧ word "Get".
Proof. by repeat split; vm_compute. Qed.
Example C120_direct_ex : handler_key (ex_meta [ex_get "users" 10] ["app.users.Get"]) "app.users.Get" = ("app.users.Get", "p").
Proof. by vm_compute. Qed.
Example C120_candidate_ex : candidates (ex_meta [ex_get "users" 10; HDecl None "Get" "" 0; HDecl None "Put" "" 0] []) "app.Users.Get" = (["app.users.Get"; "app.Get"], ("api/h.go", 10)).
Proof. by vm_compute. Qed.
Example C120_same_file_ex : same_file "/src/app/api/h.go" "api/h.go" = true ∧ same_file "/src/xapi/h.go" "api/h.go" = false.
Proof. by vm_compute. Qed.
Example C120_literal_ex : func_lit (ex_meta [] ["app.FuncLit:api/h.go:30:9"; "app.FuncLit:api/h.go:12:9"]) "api/h.go" 10 = Some "app.FuncLit:api/h.go:12:9".
Proof. by vm_compute. Qed.
(** An interface of another package, found through its implementers. *)
Example C120_interface_ex : handler_key (HMeta [("db.Store.Get", "p")] (λ _, []) (λ _, ("", 0)) (λ _ _, ["db.Store"]) (λ _ _ _, ("db/s.go", 7))) "app.Reader.Get" = ("db.Store.Get", "db/s.go:7").
Proof. by vm_compute. Qed.
Example C120_only_ex : handler_key (ex_meta [HDecl None "Put" "" 0; ex_get "users" 10] ["app.users.Get"]) "app.Users.Get" = ("app.users.Get", "api/h.go:10").
Proof. by vm_compute. Qed.
Example C120_factory_ex : handler_key (ex_meta [HDecl None "Put" "api/h.go" 3; ex_get "users" 10; ex_get "orders" 28] ["app.FuncLit:api/h.go:30:9"; "app.FuncLit:api/h.go:12:9"]) "app.Users.Get"
  = ("app.FuncLit:api/h.go:12:9", "api/h.go:10").
Proof. by vm_compute. Qed.
Example C120_interface_factory_ex : handler_key (HMeta [("db.FuncLit:db/s.go:8:2", "p")] (λ _, []) (λ _, ("db/s.go", 8)) (λ _ _, ["db.Store"]) (λ _ _ _, ("db/s.go", 7))) "app.Reader.Get"
  = ("db.FuncLit:db/s.go:8:2", "db/s.go:7").
Proof. by vm_compute. Qed.
