(** * C89: the handler behind middleware, adapters and conversions. *)
From stdpp Require Import base list strings.
From Verif Require Import PeelModel.

Section peel.
  Context (known : nat → bool) (sig : nat → option msig).
  (** ** Specification *)
  (** A function: a literal, or a name known to be one. *)
  Definition is_function (a : harg) : Prop := match a with PName i => known i = true | PFuncLit _ => True | _ => False end.
  (** The callee takes and returns the same type. *)
  Definition middleware (i : nat) : Prop := shaped_sig (sig i) = true.
  (** [stands a c]: in a call of [i], the argument [a] is a handler, namely [c]: a converted function; a call that
      itself wraps one; a function given to a middleware. [wraps a c]: the call [a] has exactly one such argument. *)
  Inductive stands : nat → harg → harg → Prop :=
    | st_conv i j c : is_function c → stands i (PConv j [c]) c
    | st_call i j args c : wraps (PCall j args) c → stands i (PCall j args) (PCall j args)
    | st_name i a : middleware i → is_function a → stands i a a
  with wraps : harg → harg → Prop :=
    | wr_call i pre a post c : stands i a c → (∀ b, b ∈ pre ++ post → plain_arg i b) → wraps (PCall i (pre ++ a :: post)) c
  (** An argument that is no handler. *)
  with plain_arg : nat → harg → Prop :=
    | pl_name i a : (∀ j args, a ≠ PConv j args) → (∀ j args, a ≠ PCall j args) → (¬ middleware i ∨ ¬ is_function a) → plain_arg i a
    | pl_conv i j args : (∀ c, args = [c] → ¬ is_function c) → plain_arg i (PConv j args)
    | pl_none i j args : (∀ b, b ∈ args → plain_arg j b) → plain_arg i (PCall j args)
    | pl_many i j pre a mid b post c d : stands j a c → stands j b d → plain_arg i (PCall j (pre ++ a :: mid ++ b :: post)).
  (** Calls nested in calls. *)
  Fixpoint depth (a : harg) : nat := match a with PCall _ args => S (foldr Nat.max 0 (depth <$> args)) | _ => 0 end.

  Definition counts (n i : nat) (b : harg) : option harg :=
    match b with
    | PConv _ inner => match converted inner with Some c => if names_function known c then Some c else None | None => None end
    | PCall _ _ => match wrapped known sig n b with Some _ => Some b | None => None end
    | _ => if shaped_sig (sig i) && names_function known b then Some b else None
    end.
  Lemma wrapped_call n i args : wrapped known sig (S n) (PCall i args) = pick None (counts n i <$> args).
  Proof. done. Qed.
  Lemma names_function_spec a : names_function known a = true ↔ is_function a.
  Proof. by destruct a. Qed.
  Lemma converted_spec args c : converted args = Some c ∧ names_function known c = true ↔ args = [c] ∧ is_function c.
  Proof.
    rewrite names_function_spec. split.
    - intros [H Hf]. destruct args as [|[] [|]]; try done; injection H as <-; done.
    - intros [-> Hf]. by destruct c.
  Qed.
  Lemma pick_some f l : pick (Some f) l = if decide (Forall (λ x, x = None) l) then Some f else None.
  Proof.
    induction l as [|[c|] l IH]; cbn [pick]; [done|by rewrite decide_False by (by intros H; apply Forall_cons in H as [? _])|]. rewrite IH.
    destruct (decide (Forall (λ x, x = None) l)); [rewrite decide_True by (by constructor); done|]. rewrite decide_False; [done|]. intros H. by apply Forall_cons in H as [_ ?].
  Qed.
  Lemma pick_spec l c : pick None l = Some c ↔ ∃ pre post, l = pre ++ Some c :: post ∧ Forall (λ x, x = None) (pre ++ post).
  Proof.
    induction l as [|[d|] l IH]; cbn [pick].
    - split; [done|]. by intros ([|] & post & ? & _).
    - rewrite pick_some. split.
      + destruct (decide _) as [H|]; [|done]. intros [= ->]. exists [], l. done.
      + intros ([|x pre] & post & E & H).
        * injection E as -> ->. rewrite decide_True by done. done.
        * injection E as <- ->. apply Forall_cons in H as [? _]. done.
    - rewrite IH. split.
      + intros (pre & post & -> & H). exists (None :: pre), post. split; [done|]. by constructor.
      + intros ([|x pre] & post & E & H); [done|]. injection E as <- ->. apply Forall_cons in H as [_ H]. by exists pre, post.
  Qed.
  Lemma pick_none l : pick None l = None ↔ Forall (λ x, x = None) l ∨ ∃ pre mid post c d, l = pre ++ Some c :: mid ++ Some d :: post.
  Proof.
    induction l as [|[d|] l IH]; cbn [pick].
    - split; [left; constructor|done].
    - rewrite pick_some. destruct (decide _) as [H|H].
      + split; [done|]. intros [H'|(pre & mid & post & c & e & E)]; [by apply Forall_cons in H' as [? _]|]. exfalso. rewrite Forall_forall in H. destruct pre as [|x pre].
        * injection E as _ ->. assert (Some e = (None : option harg)); [|done]. apply H. rewrite elem_of_app, elem_of_cons. auto.
        * injection E as _ ->. assert (Some c = (None : option harg)); [|done]. apply H. rewrite elem_of_app, elem_of_cons. auto.
      + split; [intros _|done]. right. exists []. apply not_Forall_Exists in H; [|intros x; destruct x; [by right|by left]]. apply Exists_exists in H as ([c|] & Hc & Hne); [|by destruct Hne].
        apply elem_of_list_split in Hc as (mid & post & ->). by exists mid, post, d, c.
    - rewrite IH. split.
      + intros [H|(pre & mid & post & c & d & ->)]; [left; by constructor|]. right. by exists (None :: pre), mid, post, c, d.
      + intros [H|(pre & mid & post & c & d & E)]; [left; by apply Forall_cons in H as [_ ?]|]. destruct pre as [|x pre]; [done|]. injection E as <- ->. right. by exists pre, mid, post, c, d.
  Qed.

  Lemma fmap_none_split {A} (f : harg → option A) l : Forall (λ x, x = None) (f <$> l) ↔ ∀ b, b ∈ l → f b = None.
  Proof. rewrite Forall_fmap, Forall_forall. done. Qed.
  Lemma depth_args i args b : b ∈ args → depth b < depth (PCall i args).
  Proof.
    cbn [depth]. intros H. induction args as [|c args IH]; [by apply elem_of_nil in H|]. cbn [fmap list_fmap foldr]. apply elem_of_cons in H as [->|H]; [lia|]. specialize (IH H). lia.
  Qed.
  (** What an argument counts as, for calls nested less than [n] deep. *)
  Lemma counts_spec n : ∀ b, depth b ≤ n →
    (∀ i c, (counts n i b = Some c ↔ stands i b c) ∧ (counts n i b = None ↔ plain_arg i b)) ∧
    (∀ c, (wrapped known sig n b = Some c ↔ wraps b c)).
  Proof.
    induction n as [n IH] using lt_wf_ind. intros b Hd.
    assert (∀ c, wrapped known sig n b = Some c ↔ wraps b c) as Hw.
    { intros c. destruct n as [|n].
      - split; [done|]. intros H. inversion H; subst. cbn in Hd. lia.
      - destruct b as [| | |i args|]; try (split; [done|by inversion 1]). rewrite wrapped_call, pick_spec. split.
        + intros (pre & post & E & H). apply fmap_app_inv in E as (pre' & rest & -> & E & ->). destruct rest as [|a post']; [done|]. injection E as Ea ->. rewrite <- fmap_app in H. rewrite fmap_none_split in H.
          constructor.
          * apply (IH n); [lia| |done]. assert (depth a < depth (PCall i (pre' ++ a :: post'))) by (apply depth_args; rewrite elem_of_app, elem_of_cons; auto). lia.
          * intros x Hx. apply (IH n); [lia| |exact a|by apply H]. assert (depth x < depth (PCall i (pre' ++ a :: post'))) by (apply depth_args; rewrite elem_of_app, elem_of_cons; apply elem_of_app in Hx as []; auto). lia.
        + intros H. inversion H as [i' pre a post c' Hs Hp]; subst. exists (counts n i <$> pre), (counts n i <$> post). split.
          * rewrite fmap_app. cbn [fmap list_fmap]. do 2 f_equal. apply (IH n); [lia| |done]. assert (depth a < depth (PCall i (pre ++ a :: post))) by (apply depth_args; rewrite elem_of_app, elem_of_cons; auto). lia.
          * rewrite <- fmap_app, fmap_none_split. intros x Hx. apply (IH n); [lia| |exact a|by apply Hp].
            assert (depth x < depth (PCall i (pre ++ a :: post))) by (apply depth_args; rewrite elem_of_app, elem_of_cons; apply elem_of_app in Hx as []; auto). lia. }
    split; [|exact Hw]. intros i c. destruct b as [j|j|j args|j args|j]; cbn [counts].
    - split.
      + split.
        * destruct (shaped_sig (sig i) && names_function known (PName j)) eqn:E; [|done]. intros [= <-]. apply andb_true_iff in E as [E1 E2]. apply st_name; [done|]. by apply names_function_spec.
        * intros H. inversion H as [| |i' a Hm Hf]; subst. by rewrite Hm, (proj2 (names_function_spec _) Hf).
      + split.
        * destruct (shaped_sig (sig i) && names_function known (PName j)) eqn:E; [done|]. intros _. apply pl_name; [done|done|]. apply andb_false_iff in E as [E|E]; [left; unfold middleware; by rewrite E|right]. rewrite <- names_function_spec. by rewrite E.
        * intros H. inversion H as [i' a _ _ Hn| | |]; subst. destruct (shaped_sig (sig i)) eqn:E1; [|done]. destruct (names_function known (PName j)) eqn:E2; [|done]. exfalso. destruct Hn as [Hn|Hn]; [by apply Hn|]. apply Hn. by apply names_function_spec.
    - split.
      + split.
        * destruct (shaped_sig (sig i)) eqn:E; [|done]. intros [= <-]. by apply st_name.
        * intros H. inversion H as [| |i' a Hm Hf]; subst. unfold middleware in Hm. by rewrite Hm.
      + split.
        * destruct (shaped_sig (sig i)) eqn:E; [done|]. intros _. apply pl_name; [done|done|]. left. unfold middleware. by rewrite E.
        * intros H. inversion H as [i' a _ _ Hn| | |]; subst. destruct (shaped_sig (sig i)) eqn:E1; [|done]. exfalso. destruct Hn as [Hn|Hn]; by apply Hn.
    - split.
      + split.
        * destruct (converted args) as [d|] eqn:E; [|done]. destruct (names_function known d) eqn:E2; [|done]. intros [= <-]. destruct (proj1 (converted_spec args d) (conj E E2)) as [-> Hf]. by constructor.
        * intros H. inversion H as [i' j' d Hf| |i' a Hm Hf]; subst; [|done]. destruct (proj2 (converted_spec [c] c) (conj eq_refl Hf)) as [-> ->]. done.
      + split.
        * intros H. apply pl_conv. intros d -> Hf. destruct (proj2 (converted_spec [d] d) (conj eq_refl Hf)) as [E1 E2]. by rewrite E1, E2 in H.
        * intros H. inversion H as [i' a Hn| i' j' args' Hn| |]; subst; [by destruct (Hn j args)|]. destruct (converted args) as [d|] eqn:E; [|done]. destruct (names_function known d) eqn:E2; [|done].
          destruct (proj1 (converted_spec args d) (conj E E2)) as [-> Hf]. by destruct (Hn d eq_refl).
    - split.
      + split.
        * destruct (wrapped known sig n (PCall j args)) as [d|] eqn:E; [|done]. intros [= <-]. apply (st_call i j args d). by apply Hw.
        * intros H. inversion H as [|i' j' args' d Hd'|i' a Hm Hf]; subst; [|done]. apply Hw in Hd'. by rewrite Hd'.
      + split.
        * destruct (wrapped known sig n (PCall j args)) as [d|] eqn:E; [done|]. intros _. destruct n as [|n]; [cbn in Hd; lia|]. rewrite wrapped_call in E. apply pick_none in E as [E|(pre & mid & post & c1 & c2 & E)].
          -- rewrite fmap_none_split in E. apply pl_none. intros x Hx. apply (IH n); [lia| |exact x|by apply E]. pose proof (depth_args j args x Hx). lia.
          -- apply fmap_app_inv in E as (pre' & rest & -> & E & ->). destruct rest as [|a rest]; [done|]. injection E as Ea E. symmetry in E. apply fmap_app_inv in E as (mid' & rest' & -> & E & ->). destruct rest' as [|a' post']; [done|]. injection E as Ea' ->.
             apply (pl_many i j pre' a mid' a' post' c1 c2).
             ++ apply (IH n); [lia| |done]. assert (depth a < depth (PCall j (pre' ++ a :: mid' ++ a' :: post'))) by (apply depth_args; rewrite elem_of_app, elem_of_cons; auto). lia.
             ++ apply (IH n); [lia| |done]. assert (depth a' < depth (PCall j (pre' ++ a :: mid' ++ a' :: post'))) by (apply depth_args; rewrite elem_of_app, elem_of_cons, elem_of_app, elem_of_cons; auto 10). lia.
        * intros H. assert (wrapped known sig n (PCall j args) = None) as ->; [|done]. destruct n as [|n]; [done|]. rewrite wrapped_call. apply pick_none. inversion H as [i' a _ Hn| |i' j' args' Hn|i' j' pre a mid a' post c1 c2 H1 H2]; subst.
          -- by destruct (Hn j args).
          -- left. rewrite fmap_none_split. intros x Hx. apply (IH n); [lia| |exact x|by apply Hn]. pose proof (depth_args j args x Hx). lia.
          -- right. exists (counts n j <$> pre), (counts n j <$> mid), (counts n j <$> post), c1, c2. rewrite fmap_app. cbn [fmap list_fmap]. rewrite fmap_app. cbn [fmap list_fmap].
             assert (counts n j a = Some c1) as ->. { apply (IH n); [lia| |done]. assert (depth a < depth (PCall j (pre ++ a :: mid ++ a' :: post))) by (apply depth_args; rewrite elem_of_app, elem_of_cons; auto). lia. }
             assert (counts n j a' = Some c2) as ->; [|done]. apply (IH n); [lia| |done]. assert (depth a' < depth (PCall j (pre ++ a :: mid ++ a' :: post))) by (apply depth_args; rewrite elem_of_app, elem_of_cons, elem_of_app, elem_of_cons; auto 10). lia.
    - split.
      + split; [by rewrite andb_false_r|]. intros H. by inversion H.
      + split; [|by rewrite andb_false_r]. intros _. apply pl_name; [done|done|]. right. by intros [].
  Qed.
  (** A call is looked through exactly when one of its arguments is a handler and no other, and then to that
      handler. Calls nested up to eight deep; see the refutation for more. *)
  Theorem C89_layer_partial a c : depth a ≤ 8 → wrapped known sig max_unwraps a = Some c ↔ wraps a c.
  Proof. intros H. by apply counts_spec. Qed.
  (** A call given several handlers, or none, is left alone. *)
  Theorem C89_no_guess j args : depth (PCall j args) ≤ 8 →
    (∀ b, b ∈ args → plain_arg j b) ∨ (∃ pre a mid b post c d, args = pre ++ a :: mid ++ b :: post ∧ stands j a c ∧ stands j b d) → handler_value known sig (PCall j args) = PCall j args.
  Proof.
    intros Hd H. unfold handler_value. cbn [peel max_unwraps]. assert (wrapped known sig max_unwraps (PCall j args) = None) as ->; [|done].
    destruct (counts_spec 8 (PCall j args) Hd) as [Hc _]. destruct (Hc j (PName 0)) as [_ Hc']. assert (plain_arg j (PCall j args)) as Hp.
    { destruct H as [H|(pre & a & mid & b & post & c & d & -> & H1 & H2)]; [by apply pl_none|by eapply pl_many]. }
    apply Hc' in Hp. cbn [counts] in Hp. unfold max_unwraps. by destruct (wrapped known sig 8 (PCall j args)).
  Qed.
  (** The layers between an argument and the handler it stands for. *)
  Inductive layers : nat → harg → harg → Prop :=
    | ly_done a : (∀ j args, a ≠ PCall j args ∨ ∀ c, ¬ wraps a c) → (∀ j i, a ≠ PConv j [PName i] ∧ a ≠ PConv j [PFuncLit i]) → layers 0 a a
    | ly_conv n j c b : (∃ i, c = PName i ∨ c = PFuncLit i) → layers n c b → layers (S n) (PConv j [c]) b
    | ly_call n a c b : wraps a c → layers n c b → layers (S n) a b.
  Lemma stands_depth i a c : stands i a c → depth c ≤ depth a.
  Proof. destruct 1 as [i j c Hf| |]; [|done|done]. by destruct c. Qed.
  Lemma wraps_depth a c : wraps a c → depth c ≤ depth a.
  Proof.
    intros H. inversion H as [i pre b post c' Hs Hp]; subst. apply stands_depth in Hs. assert (depth b < depth (PCall i (pre ++ b :: post))) by (apply depth_args; rewrite elem_of_app, elem_of_cons; auto). lia.
  Qed.
  (** Up to eight layers are looked through, whatever their order: the handler is what is behind all of them. *)
  Theorem C89_handler_partial n a b : depth a ≤ 8 → n ≤ 8 → layers n a b → handler_value known sig a = b.
  Proof.
    unfold handler_value. intros Hd Hn H. assert (∀ m, n ≤ m → peel known sig m a = b) as Hm; [|by apply Hm]. clear Hn.
    induction H as [a H1 H2|n j c b Hc H IH|n a c b Hw H IH]; intros m Hm.
    - destruct m as [|m]; [done|]. destruct a as [| |j args|j args|]; cbn [peel]; try done.
      + destruct (converted args) as [c|] eqn:E; [|done]. exfalso. destruct args as [|[i|i| | |] [|]]; try done; by destruct (H2 j i).
      + destruct (wrapped known sig max_unwraps (PCall j args)) as [c|] eqn:E; [|done]. exfalso. apply C89_layer_partial in E; [|done]. destruct (H1 j args) as [?|Hn]; [done|]. by apply (Hn c).
    - destruct m as [|m]; [lia|]. cbn [peel]. destruct Hc as [i [-> | ->]]; cbn [converted]; (apply IH; [cbn; lia|lia]).
    - destruct m as [|m]; [lia|]. pose proof (wraps_depth _ _ Hw) as Hwd. inversion Hw as [i pre x post c' Hs Hp]; subst. cbn [peel]. apply C89_layer_partial in Hw; [|done]. rewrite Hw. apply IH; [lia|lia].
  Qed.
End peel.

(** ** Types *)
(** What middlewareShaped says: one parameter, and its type has the name of the result's, with no two packages that
    differ. *)
Theorem C89_shape p r pp pn rp rn : base_ref p = (pp, pn) → base_ref r = (rp, rn) →
  shaped_sig (Some (MSig [Some p] (Some r))) = true ↔ pn ≠ "" ∧ pn = rn ∧ (pp = "" ∨ rp = "" ∨ pp = rp).
Proof.
  intros Ep Er. cbn [shaped_sig]. rewrite Ep, Er, !andb_true_iff, !negb_true_iff, !bool_decide_eq_true, !bool_decide_eq_false. split.
  - intros [[H1 H2] H3]. split; [done|]. split; [done|]. destruct (decide (pp = "")); [auto|]. destruct (decide (rp = "")); [auto|]. destruct (decide (pp = rp)); [auto|]. by destruct H2.
  - intros (H1 & H2 & H3). split; [split; [done|]|done]. intros (? & ? & ?). by destruct H3 as [?|[?|?]].
Qed.
(** The type as the code names it, and as it is written in its own package. *)
Definition written (t : mref) : mref := match t with MRef _ n => MRef "" n | t => t end.
(** [func Adapt(h Handler) http.Handler], with a type [Handler] of its own, is taken for middleware. *)
Theorem C89_adapter_refuted : ∃ p r, p ≠ r ∧ shaped_sig (Some (MSig [Some (written p)] (Some r))) = true.
Proof. exists (MRef "example.com/web" "Handler"), (MRef "net/http" "Handler"). done. Qed.
(** A call with two handlers counts as none: next to it another argument is taken, though the call is ambiguous. *)
Theorem C89_nested_guess_refuted : ∃ known sig a h1 h2 h3, handler_value known sig a = h3 ∧
  a = PCall 0 [PCall 1 [PConv 2 [h1]; PConv 2 [h2]]; PConv 2 [h3]] ∧ is_function known h1 ∧ is_function known h2 ∧ is_function known h3 ∧ h1 ≠ h3 ∧ h2 ≠ h3.
Proof. exists (λ _, true), (λ _, None). eexists _, (PName 10), (PName 11), (PName 12). split; [|split; [reflexivity|done]]. done. Qed.
(** Nine layers of middleware around a handler are not looked through: the name of a middleware is documented. *)
Fixpoint wrap_times (n : nat) (a : harg) : harg := match n with 0 => a | S n => PCall n [wrap_times n a] end.
Theorem C89_deep_refuted : ∃ known sig a, wraps known sig (wrap_times 9 a) (wrap_times 8 a) ∧ layers known sig 9 (wrap_times 9 a) a ∧ handler_value known sig (wrap_times 9 a) ≠ a.
Proof.
  set (h := λ _ : nat, Some (MSig [Some (MRef "net/http" "Handler")] (Some (MRef "net/http" "Handler")))). exists (λ _, true), h, (PName 0).
  assert (∀ n, wraps (λ _, true) h (wrap_times (S n) (PName 0)) (wrap_times n (PName 0))) as Hw.
  { induction n as [|n IH]; cbn [wrap_times]; apply (wr_call _ _ _ [] _ []).
    - by apply st_name.
    - by intros b ?%elem_of_nil.
    - eapply st_call. exact IH.
    - by intros b ?%elem_of_nil. }
  split; [apply (Hw 8)|]. split; [|done]. do 9 (eapply ly_call; [apply Hw|]). cbn [wrap_times]. apply ly_done; [|done]. intros j args. by left.
Qed.
(** Middleware inside an adapter with other arguments, and a factory. *)
Example C89_layers_case : let known := λ i, bool_decide (i = 7) in let sig := λ i, if decide (i = 1) then Some (MSig [Some (MRef "" "Handler")] (Some (MRef "net/http" "Handler"))) else None in
  let a := PCall 0 [POther 5; PCall 1 [PConv 2 [PName 7]]; PName 6] in
  depth a ≤ 8 ∧ layers known sig 2 a (PName 7) ∧ handler_value known sig a = PName 7 ∧ handler_value known sig (PCall 3 [PName 6]) = PCall 3 [PName 6].
Proof.
  cbn zeta. split; [by vm_compute; lia|]. split; [|done].
  assert (∀ known sig, (known 7 = true) → wraps known sig (PCall 1 [PConv 2 [PName 7]]) (PName 7)) as H. { intros known sig Hk. apply (wr_call _ _ _ [] _ []); [by constructor|by intros b ?%elem_of_nil]. }
  eapply ly_call.
  - apply (wr_call _ _ 0 [POther 5] (PCall 1 [PConv 2 [PName 7]]) [PName 6]); [eapply st_call; by apply H|]. intros b. cbn [app]. rewrite !elem_of_cons, elem_of_nil. intros [-> | [-> | []]]; (apply pl_name; [done|done|]); right; intros H0; by vm_compute in H0.
  - eapply ly_call; [by apply H|]. apply ly_done; [|done]. intros j args. by left.
Qed.
Example C89_no_guess_case : let known := λ _ : nat, true in handler_value known (λ _, None) (PCall 0 [PConv 2 [PName 7]; PConv 2 [PFuncLit 8]]) = PCall 0 [PConv 2 [PName 7]; PConv 2 [PFuncLit 8]] ∧
  stands known (λ _, None) 0 (PConv 2 [PName 7]) (PName 7) ∧ stands known (λ _, None) 0 (PConv 2 [PFuncLit 8]) (PFuncLit 8).
Proof. split; [done|]. split; by constructor. Qed.
Example C89_shape_case : shaped_sig (Some (MSig [Some (MPtr (Some (MRef "" "Handler")))] (Some (MRef "net/http" "Handler")))) = true ∧ shaped_sig (Some (MSig [Some (MRef "echo" "Context")] (Some (MRef "" "error")))) = false.
Proof. done. Qed.

Print Assumptions C89_layer_partial.
Print Assumptions C89_no_guess.
Print Assumptions C89_handler_partial.
Print Assumptions C89_shape.
Print Assumptions C89_adapter_refuted.
Print Assumptions C89_nested_guess_refuted.
Print Assumptions C89_deep_refuted.
