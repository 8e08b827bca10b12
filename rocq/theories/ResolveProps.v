(** * C119: the implementations that struct literals give interfaces. *)
From Coq Require Import Ascii.
From stdpp Require Import base list strings gmap.
From Verif Require Import StrLib StrSub ResolveModel.

(** A composite literal of a type named without a dot, or the address of one, and its text. *)
Inductive local_literal : rvalue → string → Prop :=
| local_addr t : t ≠ "" → contains_byte "." t = false → local_literal (RAddr t) ("*" +:+ t)
| local_lit t : t ≠ "" → contains_byte "." t = false → local_literal (RLit t) t.
(** The fields written in literals of named types: struct, package, and the pair. *)
Definition fields_written (ls : list rlit) : list (string * string * rpair) :=
  ls ≫= λ l, if decide (rl_type l = "") then [] else (λ p, (rl_type l, rl_pkg l, p)) <$> rl_pairs l.
(** A field written gives a key a type. *)
Definition gives (x : string * string * rpair) (k : rkey) (c : string) : Prop :=
  k.1.1 ≠ "" ∧ rp_key x.2 = Some k.1.1 ∧ k.1.2 = x.1.1 ∧ k.2 = x.1.2 ∧ local_literal (rp_value x.2) c.

Lemma local_spec v c : local_literal v c ↔ taken_for_interface v = true ∧ c = concrete_type v.
Proof.
  split.
  - intros [t Ht Hd|t Ht Hd]; cbn; (split; [|done]); rewrite bool_decide_eq_false_2 by done; by rewrite Hd.
  - intros [H ->]. destruct v as [t|t|]; cbn in *; [| |done]; apply andb_true_iff in H as [H1 H2]; apply negb_true_iff, bool_decide_eq_false in H1; apply negb_true_iff in H2; by constructor.
Qed.
Lemma gives_dec x k : { c | gives x k c } + (∀ c, ¬ gives x k c).
Proof.
  destruct (decide (k.1.1 ≠ "" ∧ rp_key x.2 = Some k.1.1 ∧ k.1.2 = x.1.1 ∧ k.2 = x.1.2 ∧ taken_for_interface (rp_value x.2) = true)) as [(H1 & H2 & H3 & H4 & H5)|N].
  - left. exists (concrete_type (rp_value x.2)). split_and!; try done. by apply local_spec.
  - right. intros c (H1 & H2 & H3 & H4 & H5). apply local_spec in H5 as [H5 _]. by apply N.
Qed.
Definition register_field (m : gmap rkey string) (x : string * string * rpair) : gmap rkey string := register_pair x.1.1 x.1.2 m x.2.
Lemma registered_flat ls : registered ls = foldl register_field ∅ (fields_written ls).
Proof.
  unfold registered. generalize (∅ : gmap rkey string) as m. induction ls as [|l ls IH]; intros m; [done|]. cbn [foldl]. rewrite IH. unfold fields_written. cbn [mbind list_bind]. rewrite foldl_app. f_equal.
  unfold register_literal. destruct (decide (rl_type l = "")); [done|]. clear. revert m. induction (rl_pairs l) as [|p ps IH]; intros m; [done|]. cbn. by rewrite IH.
Qed.
Lemma register_field_spec m x k c : register_field m x !! k = Some c ↔ gives x k c ∨ ((∀ d, ¬ gives x k d) ∧ m !! k = Some c).
Proof.
  assert (∀ d, gives x k d → register_field m x !! k = Some d) as Hg.
  { intros d (H1 & H2 & H3 & H4 & H5). apply local_spec in H5 as [H5 ->]. unfold register_field, register_pair. rewrite H5, H2.
    rewrite decide_True; [destruct k as [[a b] e]; cbn in *; subst b e; by rewrite lookup_insert|]. split; [|done]. destruct (rp_value x.2); [done| |done]. cbn in *. apply andb_true_iff in H5 as [H5 _]. by apply negb_true_iff, bool_decide_eq_false in H5. }
  destruct (gives_dec x k) as [[d Hd]|N].
  - rewrite (Hg d Hd). split; [intros [= ->]; by left|]. intros [Hc|[Hc _]]; [|by destruct (Hc d)]. destruct Hd as (_ & _ & _ & _ & Hd), Hc as (_ & _ & _ & _ & Hc). apply local_spec in Hd as [_ ->], Hc as [_ ->]. done.
  - assert (register_field m x !! k = m !! k) as ->; [|naive_solver]. unfold register_field, register_pair. destruct (taken_for_interface (rp_value x.2)) eqn:T; [|done].
    destruct (rp_key x.2) as [f|] eqn:F; [|done]. destruct (decide _) as [[D1 D2]|]; [|done]. apply lookup_insert_ne. intros <-. apply (N (concrete_type (rp_value x.2))). split_and!; try done. by apply local_spec.
Qed.
(** A field of a struct of a package is registered with a type exactly if the last literal of a type named without a dot that is written for it has that
    type, with a star for an address. *)
Theorem C119_registered_iff ls k c : registered ls !! k = Some c ↔
  ∃ l x l', fields_written ls = l ++ x :: l' ∧ gives x k c ∧ ∀ y d, y ∈ l' → ¬ gives y k d.
Proof.
  rewrite registered_flat. induction (fields_written ls) as [|x xs IH] using rev_ind.
  - cbn. rewrite lookup_empty. split; [done|]. intros (l & x & l' & E & _). by destruct l.
  - rewrite foldl_app. cbn [foldl]. rewrite register_field_spec, IH. split.
    + intros [G|[N (l & y & l' & -> & G & H)]].
      * exists xs, x, []. split; [done|]. split; [done|]. intros y d Hy. by apply elem_of_nil in Hy.
      * exists l, y, (l' ++ [x]). split; [by rewrite <- app_assoc|]. split; [done|]. intros z d [Hz|Hz]%elem_of_app; [by apply H|]. apply elem_of_list_singleton in Hz as ->. apply N.
    + intros (l & y & l' & E & G & H). destruct l' as [|z l'] using rev_ind.
      * apply app_inj_tail in E as [-> ->]. by left.
      * clear IHl'. rewrite app_comm_cons, app_assoc in E. apply app_inj_tail in E as [-> ->]. right. split.
        -- intros d. apply H. apply elem_of_app. right. by apply elem_of_list_singleton.
        -- exists l, y, l'. split; [done|]. split; [done|]. intros w d Hw. apply H. apply elem_of_app. by left.
Qed.
Print Assumptions C119_registered_iff.

Lemma resolve_fst meta tracker k : (∀ j c, tracker !! j = Some c → meta !! j = Some c) → (resolve meta tracker k).1 = default k.1.1 (meta !! k) ∧ (∀ j c, (resolve meta tracker k).2 !! j = Some c → meta !! j = Some c).
Proof.
  intros H. unfold resolve, resolve_local. destruct (decide _) as [N|N].
  - cbn. split; [|done]. destruct (tracker !! k) as [c|] eqn:E; [|done]. by rewrite (H k c E).
  - destruct (meta !! k) as [c|] eqn:E; cbn; [|done]. split; [done|]. intros j d. destruct (decide (k = j)) as [<-|Nj]; [rewrite lookup_insert; by intros [= <-]|]. rewrite lookup_insert_ne by done. apply H.
Qed.
(** Whatever was asked before, and whether the map was taken over or not: the answer is the type registered, or else the interface itself. *)
Theorem C119_answers ls ks i k : ks !! i = Some k →
  (∀ c, registered ls !! k = Some c → resolve_all (registered ls) ∅ ks !! i = Some c ∧ resolve_all (registered ls) (synced (registered ls) ∅) ks !! i = Some c) ∧
  (registered ls !! k = None → resolve_all (registered ls) ∅ ks !! i = Some k.1.1 ∧ resolve_all (registered ls) (synced (registered ls) ∅) ks !! i = Some k.1.1).
Proof.
  intros Hk. assert (∀ tracker, (∀ j c, tracker !! j = Some c → registered ls !! j = Some c) → resolve_all (registered ls) tracker ks !! i = Some (default k.1.1 (registered ls !! k))) as G.
  { revert i Hk. induction ks as [|k0 ks IH]; intros i Hk tracker H; [done|]. cbn. destruct (resolve_fst (registered ls) tracker k0 H) as [E1 E2]. destruct (resolve (registered ls) tracker k0) as [c t]. cbn in E1, E2.
    destruct i as [|i]; cbn in Hk |- *; [injection Hk as ->; by rewrite E1|]. by apply IH. }
  assert (∀ j c, (∅ : gmap rkey string) !! j = Some c → registered ls !! j = Some c) as H0 by (intros j c E; by rewrite lookup_empty in E).
  assert (∀ j c, synced (registered ls) ∅ !! j = Some c → registered ls !! j = Some c) as H1. { intros j c. unfold synced. by rewrite (right_id_L ∅ (∪)). }
  split; [intros c E|intros E]; by rewrite (G _ H0), (G _ H1), E.
Qed.
Print Assumptions C119_answers.
(** Metadata read from a file has none: every interface stays as it is. *)
Theorem C119_loaded ks : resolve_all ∅ ∅ ks = (λ k : rkey, k.1.1) <$> ks.
Proof.
  induction ks as [|k ks IH]; [done|]. cbn. unfold resolve, resolve_local. rewrite !lookup_empty. cbn. destruct (decide _); [done|]. by rewrite IH.
Qed.
Print Assumptions C119_loaded.

(** [Server{UserService: &userImpl{}, Addr: address{}}], and the like. *)
Definition server (fs : list (string * rvalue)) : rlit := RLitOf "Server" "main" ((λ f, RPair (Some f.1) f.2) <$> fs).
(** An implementation of another package is not registered. *)
Theorem C119_qualified_refuted : ∃ l f t, RPair (Some f) (RAddr t) ∈ rl_pairs l ∧ t = "svc.UserImpl" ∧ registered [l] !! (f, rl_type l, rl_pkg l) = None.
Proof. exists (server [("UserService", RAddr "svc.UserImpl")]), "UserService", "svc.UserImpl". split; [by left|]. split; [done|]. by vm_compute. Qed.
Print Assumptions C119_qualified_refuted.
(** A field that is no interface is: nothing asks for the declaration of the field. *)
Theorem C119_struct_refuted : ∃ l, rl_pairs l = [RPair (Some "Address") (RLit "Address")] ∧ registered [l] !! ("Address", rl_type l, rl_pkg l) = Some "Address".
Proof. exists (server [("Address", RLit "Address")]). split; [done|]. by vm_compute. Qed.
Print Assumptions C119_struct_refuted.
(** Of two implementations the one seen first is lost. *)
Theorem C119_two_refuted : ∃ a b, registered [a] !! ("Store", "Server", "main") = Some "*sqlStore" ∧ registered [a; b] !! ("Store", "Server", "main") = Some "*memStore" ∧ registered [b; a] !! ("Store", "Server", "main") = Some "*sqlStore".
Proof. exists (server [("Store", RAddr "sqlStore")]), (server [("Store", RAddr "memStore")]). split_and!; by vm_compute. Qed.
Print Assumptions C119_two_refuted.
(** The key is the name of the field: an interface whose field has another name is not resolved. *)
Theorem C119_name_refuted : ∃ l, rl_pairs l = [RPair (Some "store") (RAddr "sqlStore")] ∧ resolve_all (registered [l]) ∅ [("Store", "Server", "main"); ("store", "Server", "main")] = ["Store"; "*sqlStore"].
Proof. exists (server [("store", RAddr "sqlStore")]). split; [done|]. by vm_compute. Qed.
Print Assumptions C119_name_refuted.

Example server_fields : registered [server [("UserService", RAddr "userImpl"); ("Clock", RLit "wallClock"); ("Name", RElse); ("Log", RAddr "zap.Logger")]; RLitOf "" "main" [RPair (Some "Clock") (RLit "x")]] =
  <[("UserService", "Server", "main") := "*userImpl"]> {[("Clock", "Server", "main") := "wallClock"]}.
Proof. apply map_to_list_inj. by vm_compute. Qed.
Example asked_twice : resolve_all (registered [server [("UserService", RAddr "userImpl")]]) ∅ [("UserService", "Server", "main"); ("UserService", "Server", "main"); ("UserService", "Other", "main")] = ["*userImpl"; "*userImpl"; "UserService"].
Proof. by vm_compute. Qed.
