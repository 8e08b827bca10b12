(** * Proofs about status mappers. *)
From stdpp Require Import sorting.
From stdpp Require Import base list strings gmap relations.
From Coq Require Import ZArith.
From Verif Require Import StrOrder ReachProofs StatModel StatSpec.

Lemma composite_spec v l : composite_lit_of v = Some l ↔ literal v l.
Proof.
  unfold composite_lit_of, literal. destruct (decide (s_kind v = SUnary)) as [E|E].
  - rewrite (bool_decide_eq_true_2 (s_kind v = SUnary)) by done. destruct (s_x v) as [x|] eqn:Ex; cbn [default].
    + destruct (decide (s_kind x = SComposite)) as [Ec|Ec].
      * rewrite bool_decide_eq_true_2 by done. split.
        -- intros [= <-]. tauto.
        -- intros [Hl [Ev|[_ Hl']]]; [subst l; rewrite E in Hl; discriminate Hl|by injection Hl' as ->].
      * rewrite bool_decide_eq_false_2 by done. split; [done|]. intros [Hl [Ev|[_ Hl']]]; [subst l; rewrite E in Hl; discriminate Hl|]. injection Hl' as ->. done.
    + rewrite bool_decide_eq_false_2 by (rewrite E; discriminate). split; [done|]. intros [Hl [Ev|[_ ?]]]; [|done]. subst l. rewrite E in Hl. discriminate Hl.
  - rewrite (bool_decide_eq_false_2 (s_kind v = SUnary)) by done.
    destruct (decide (s_kind v = SComposite)) as [Ec|Ec].
    + rewrite bool_decide_eq_true_2 by done. split; [intros [= <-]; tauto|]. intros [Hl [Ev|[? _]]]; [subst l; done|done].
    + rewrite bool_decide_eq_false_2 by done. split; [done|]. intros [Hl [Ev|[? _]]]; [subst l; done|done].
Qed.
Lemma composite_none v : composite_lit_of v = None ↔ ∀ l, ¬ literal v l.
Proof.
  split.
  - intros E l Hl. apply composite_spec in Hl. congruence.
  - intros H. destruct (composite_lit_of v) as [l|] eqn:E; [|done]. apply composite_spec in E. by apply H in E.
Qed.

Lemma callee_name_spec v name : name ≠ "" → callee_name_of (s_fn v) = name ↔ called_as v name.
Proof.
  intros Hn. unfold callee_name_of, called_as. destruct (s_fn v) as [fn|].
  2: { split; [intros <-; done|]. intros (_ & ? & [=] & _). }
  destruct (decide (s_name fn = "")) as [E|E].
  - rewrite (bool_decide_eq_false_2 (s_name fn ≠ "")) by tauto.
    destruct (decide (s_kind fn = SSelector)) as [Ek|Ek].
    + rewrite bool_decide_eq_true_2 by done. destruct (s_sel fn) as [s|] eqn:Es.
      * split.
        -- intros <-. split; [done|]. exists fn. split; [done|]. right. split; [done|]. split; [done|]. exists s. done.
        -- intros (_ & ? & [= <-] & [?|(_ & _ & s' & Es' & ?)]); [congruence|]. rewrite Es in Es'. by injection Es' as ->.
      * split; [intros <-; done|]. intros (_ & ? & [= <-] & [?|(_ & _ & s' & ? & ?)]); congruence.
    + rewrite bool_decide_eq_false_2 by done. split; [intros <-; done|].
      intros (_ & ? & [= <-] & [?|(_ & ? & _)]); congruence.
  - rewrite bool_decide_eq_true_2 by done. split.
    + intros <-. split; [done|]. exists fn. split; [done|]. by left.
    + intros (_ & ? & [= <-] & [?|(? & _)]); congruence.
Qed.

Section stat.
Context (map_status : sarg → option Z) (find : string → string → option sfunc).
Context (types : string → string → option (list string)) (pkgs : list string) (field : string).

Lemma one_of_list (l : list (option sarg)) s :
  omap (λ a, match a with Some a => map_status a | None => None end) l = [s] ↔
  ∃ i a, l !! i = Some (Some a) ∧ map_status a = Some s ∧
     ∀ j b, j ≠ i → l !! j = Some (Some b) → map_status b = None.
Proof.
  set (g := λ a : option sarg, match a with Some a => map_status a | None => None end).
  assert (∀ l, omap g l = [] ↔ ∀ j b, l !! j = Some (Some b) → map_status b = None) as Hnil.
  { clear l. intros l. induction l as [|a l IH]; [split; done|]. cbn [omap list_omap]. destruct (g a) as [t|] eqn:Eg.
    - split; [done|]. intros H. destruct a as [a|]; [|done]. specialize (H 0 a eq_refl). cbn in Eg. congruence.
    - rewrite IH. split.
      + intros H [|j] b Hj; [|by eapply H]. cbn in Hj. injection Hj as ->. done.
      + intros H j b Hj. by apply (H (S j) b). }
  revert s. induction l as [|a l IH]; intros s.
  - cbn. split; [done|]. by intros (i & a & Hi & _).
  - cbn [omap list_omap]. destruct (g a) as [t|] eqn:Eg.
    + destruct a as [a|]; [|done]. cbn in Eg. split.
      * intros E. injection E as -> Hl. exists 0, a. split; [done|]. split; [done|].
        intros [|j] b Hj Hb; [done|]. by apply (proj1 (Hnil l) Hl j b).
      * intros (i & b & Hi & Hb & Hu). assert (i = 0) as ->.
        { destruct i; [done|]. rewrite (Hu 0 a) in Eg by done. done. }
        cbn in Hi. injection Hi as ->. f_equal; [congruence|]. apply Hnil. intros j c Hj. by apply (Hu (S j) c).
    + etrans; [apply IH|]. split.
      * intros (i & b & Hi & Hb & Hu). exists (S i), b. split; [done|]. split; [done|].
        intros [|j] c Hj Hc; [cbn in Hc; injection Hc as ->; done|]. apply (Hu j c); [lia|done].
      * intros (i & b & Hi & Hb & Hu). destruct i as [|i]; [cbn in Hi; injection Hi as ->; cbn in Eg; congruence|].
        exists i, b. split; [done|]. split; [done|]. intros j c Hj Hc. apply (Hu (S j) c); [lia|done].
Qed.

Lemma status_spec v s : status_code_of_value map_status v = Some s ↔ is_status map_status v s.
Proof.
  unfold status_code_of_value, is_status. destruct (decide (s_kind v = SCall)) as [E|E].
  - rewrite bool_decide_eq_true_2 by done. rewrite <- one_of_list.
    destruct (omap _ (s_args v)) as [|t [|u l]]; split.
    all: try done.
    all: try (intros [[? _]|[_ ?]]; congruence).
    intros [= ->]. by right.
  - rewrite bool_decide_eq_false_2 by done. tauto.
Qed.
Lemma status_none v : status_code_of_value map_status v = None ↔ ∀ s, ¬ is_status map_status v s.
Proof.
  split.
  - intros E s Hs. apply status_spec in Hs. congruence.
  - intros H. destruct (status_code_of_value map_status v) as [s|] eqn:E; [|done]. apply status_spec in E. by apply H in E.
Qed.

Notation field_of := (λ f l, struct_field_value types pkgs l field f).
Notation ret := (return_field_statuses map_status find types pkgs field).
Notation val := (field_status_of_value map_status find types pkgs field).
Notation step := (stat_step find).
Notation steps := (stat_steps find).
Notation sets := (sets map_status field_of).
Notation leaves_open := (leaves_open map_status field_of).
Notation sstate := (gset Z * gset string)%type.

Lemma elem_of_concat_returned f v : v ∈ concat (sf_returns f) ↔ returned f v.
Proof.
  unfold returned. induction (sf_returns f) as [|r l IH]; cbn [concat].
  - split; [by intros ?%elem_of_nil|]. by intros (r & ?%elem_of_nil & _).
  - rewrite elem_of_app, IH. split.
    + intros [?|(r' & ? & ?)]; [exists r; by split; [left|]|exists r'; by split; [right|]].
    + intros (r' & Hr & Hv). apply elem_of_cons in Hr as [->|Hr]; [by left|right; eauto].
Qed.

(** The function an assigned or a returned call leads to. *)
Lemma find_some pkg name h : find_function_by_name find pkg name = Some h ↔ name ≠ "" ∧ find pkg name = Some h.
Proof.
  unfold find_function_by_name. destruct (decide (name = "")) as [E|E].
  - rewrite bool_decide_eq_true_2 by done. split; [done|tauto].
  - rewrite bool_decide_eq_false_2 by done. tauto.
Qed.

(** ** Unfolding the value function on what is not a literal *)
Definition assigned (scope : sfunc) (v : sarg) : list sassign := default [] (sf_assigns scope !! s_name v).
Lemma elem_of_assigned scope v a : a ∈ assigned scope v ↔ ∃ as_, sf_assigns scope !! s_name v = Some as_ ∧ a ∈ as_.
Proof.
  unfold assigned. destruct (sf_assigns scope !! s_name v) as [l|]; cbn [default]; split.
  - eauto.
  - intros (? & [= <-] & ?). done.
  - by intros ?%elem_of_nil.
  - by intros (? & [=] & _).
Qed.
Definition assign_body (fuel : nat) (scope : sfunc) (depth : nat) (a : sassign) (st : sstate) : option (bool * sstate) :=
  if bool_decide (s_kind (sa_value a) = SCall)
  then ret fuel (find_function_by_name find (sa_pkg a) (sa_func a)) (S depth) st
  else val fuel (sa_value a) scope (S depth) st.
Lemma val_eq fuel v scope depth st : val (S fuel) v scope depth st =
  match composite_lit_of v with
  | Some lit =>
    match struct_field_value types pkgs lit field scope with
    | None => Some (false, st)
    | Some fv => match status_code_of_value map_status fv with
                 | Some s => Some (false, ({[ s ]} ∪ st.1, st.2))
                 | None => Some (true, st) end
    end
  | None =>
    match s_kind v with
    | SIdent => residues (assign_body fuel scope depth) (assigned scope v) st
    | SCall => if bool_decide (callee_name_of (s_fn v) = "") then Some (false, st)
               else ret fuel (find_function_by_name find (sf_pkg scope) (callee_name_of (s_fn v))) (S depth) st
    | _ => Some (false, st)
    end
  end.
Proof. reflexivity. Qed.
Lemma ret_eq fuel f depth st : ret (S fuel) (Some f) depth st =
  if bool_decide (max_mapper_depth < depth) then Some (true, st)
  else if bool_decide (fn_id f ∈ st.2) then Some (false, st)
  else residues (λ v st, val fuel v f depth st) (concat (sf_returns f)) (st.1, {[ fn_id f ]} ∪ st.2).
Proof. reflexivity. Qed.

(** ** What a run establishes *)

(** Seen from the end of a run: the place needs no more work. *)
Inductive covered (S : gset Z) (N : gset string) : place → Prop :=
  | cov_fun h : fn_id h ∈ N → covered S N (AtFun h)
  | cov_val f v : (∀ s, sets f v s → s ∈ S) → ¬ leaves_open f v →
      (∀ n b, step n (AtVal f v) b → covered S N b) → covered S N (AtVal f v).
Definition expanded (S : gset Z) (N : gset string) (h : sfunc) : Prop := ∀ v, returned h v → covered S N (AtVal h v).

Lemma covered_mono S N S' N' p : S ⊆ S' → N ⊆ N' → covered S N p → covered S' N' p.
Proof.
  intros HS HN. induction 1 as [h Hh|f v Hs Ho Hstep IH]; constructor.
  - set_solver.
  - intros s Hs'. apply HS, Hs, Hs'.
  - done.
  - intros n b Hb. by eapply IH.
Qed.
Lemma expanded_mono S N S' N' h : S ⊆ S' → N ⊆ N' → expanded S N h → expanded S' N' h.
Proof. intros HS HN H v Hv. eapply covered_mono; [done..|]. by apply H. Qed.

(** The functions the search can meet, and that their names tell them apart. *)
Context (known : sfunc → Prop) (known_find : ∀ p n h, find p n = Some h → known h)
  (known_id : ∀ f g, known f → known g → fn_id f = fn_id g → f = g).

(** What one run from place [p] at depth [d] does to the state. *)
Definition run_ok (p : place) (d : nat) (st : sstate) (b : bool) (st' : sstate) : Prop :=
  st.1 ⊆ st'.1 ∧ st.2 ⊆ st'.2 ∧
  (∀ s, s ∈ st'.1 → s ∈ st.1 ∨ ∃ n g v, steps n p (AtVal g v) ∧ sets g v s) ∧
  (b = false → covered st'.1 st'.2 p ∧
     ∀ h, known h → fn_id h ∈ st'.2 → fn_id h ∉ st.2 → expanded st'.1 st'.2 h) ∧
  (b = true → (∃ n g v, steps n p (AtVal g v) ∧ leaves_open g v) ∨
              ∃ n h, max_mapper_depth < d + n ∧ steps n p (AtFun h)).

(** A loop of runs. *)
Definition all_ok {A} (place_of : A → option place) (d : nat) (l : list A) (st : sstate) (b : bool) (st' : sstate) : Prop :=
  st.1 ⊆ st'.1 ∧ st.2 ⊆ st'.2 ∧
  (∀ s, s ∈ st'.1 → s ∈ st.1 ∨ ∃ a p n g v, a ∈ l ∧ place_of a = Some p ∧ steps n p (AtVal g v) ∧ sets g v s) ∧
  (b = false → (∀ a p, a ∈ l → place_of a = Some p → covered st'.1 st'.2 p) ∧
     ∀ h, known h → fn_id h ∈ st'.2 → fn_id h ∉ st.2 → expanded st'.1 st'.2 h) ∧
  (b = true → ∃ a p, a ∈ l ∧ place_of a = Some p ∧
     ((∃ n g v, steps n p (AtVal g v) ∧ leaves_open g v) ∨ ∃ n h, max_mapper_depth < d + n ∧ steps n p (AtFun h))).
Lemma residues_ok {A} (body : A → sstate → option (bool * sstate)) (place_of : A → option place) d : ∀ l,
  (∀ a, a ∈ l → ∀ st b st', body a st = Some (b, st') →
     match place_of a with Some p => run_ok p d st b st' | None => b = false ∧ st' = st end) →
  ∀ st b st', residues body l st = Some (b, st') → all_ok place_of d l st b st'.
Proof.
  intros l. induction l as [|a l IH]; intros Hbody st b st' E; cbn [residues] in E.
  - injection E as <- <-. unfold all_ok. split; [done|]. split; [done|]. split; [tauto|]. split; [|done].
    intros _. split; [by intros a p ?%elem_of_nil|]. intros h _ H1 H2. done.
  - destruct (body a st) as [[b1 st1]|] eqn:E1; [|done]. cbn [mbind option_bind] in E.
    destruct (residues body l st1) as [[b2 st2]|] eqn:E2; [|done]. cbn [mbind option_bind] in E.
    injection E as <- <-.
    specialize (IH ltac:(intros; apply Hbody; [by right|done]) _ _ _ E2) as (I1 & I2 & I3 & I4 & I5).
    specialize (Hbody a ltac:(left) _ _ _ E1).
    destruct (place_of a) as [p|] eqn:Ep.
    + destruct Hbody as (B1 & B2 & B3 & B4 & B5). unfold all_ok. split; [by etrans|]. split; [by etrans|]. split; [|split].
      * intros s Hs. apply I3 in Hs as [Hs|(a' & p' & n & g & v & Ha & Hp & Hst & Hset)].
        -- apply B3 in Hs as [Hs|(n & g & v & Hst & Hset)]; [by left|]. right. exists a, p, n, g, v. split; [left|done].
        -- right. exists a', p', n, g, v. split; [by right|done].
      * intros [Hb1 Hb2]%orb_false_iff. destruct (B4 Hb1) as [C1 X1]. destruct (I4 Hb2) as [C2 X2]. split.
        -- intros a' p' Ha Hp. apply elem_of_cons in Ha as [->|Ha]; [|by eapply C2].
           rewrite Ep in Hp. injection Hp as <-. eapply covered_mono; [..|exact C1]; done.
        -- intros h Hk Hin Hni. destruct (decide (fn_id h ∈ st1.2)) as [H1|H1]; [|by apply X2].
           eapply expanded_mono; [..|by apply X1]; done.
      * intros [Hb|Hb]%orb_true_iff.
        -- exists a, p. split; [left|]. split; [done|]. by apply B5.
        -- destruct (I5 Hb) as (a' & p' & Ha & Hp & H). exists a', p'. split; [by right|]. done.
    + destruct Hbody as [-> ->]. unfold all_ok. split; [done|]. split; [done|]. split; [|split].
      * intros s Hs. apply I3 in Hs as [Hs|(a' & p' & n & g & v & Ha & Hp & Hst & Hset)]; [by left|].
        right. exists a', p', n, g, v. split; [by right|done].
      * intros Hb. cbn [orb] in Hb. destruct (I4 Hb) as [C2 X2]. split; [|done].
        intros a' p' Ha Hp. apply elem_of_cons in Ha as [->|Ha]; [congruence|by eapply C2].
      * intros Hb. cbn [orb] in Hb. destruct (I5 Hb) as (a' & p' & Ha & Hp & H). exists a', p'. split; [by right|]. done.
Qed.

Lemma steps_zero n p q r : step 0 p q → steps n q r → steps n p r.
Proof. intros H1 H2. change n with (0 + n). by econstructor. Qed.
Lemma steps_one n p q r : step 1 p q → steps n q r → steps (S n) p r.
Proof. intros H1 H2. change (S n) with (1 + n). by econstructor. Qed.

(** The place an assignment leads to. *)
Definition assign_place (scope : sfunc) (a : sassign) : option place :=
  if bool_decide (s_kind (sa_value a) = SCall)
  then AtFun <$> find_function_by_name find (sa_pkg a) (sa_func a)
  else Some (AtVal scope (sa_value a)).
Lemma assign_step scope v a p : composite_lit_of v = None → s_kind v = SIdent → a ∈ assigned scope v →
  assign_place scope a = Some p → step 1 (AtVal scope v) p.
Proof.
  intros Hl Hk Ha Hp. apply elem_of_assigned in Ha as (as_ & Has & Ha). rewrite composite_none in Hl.
  unfold assign_place in Hp. destruct (decide (s_kind (sa_value a) = SCall)) as [E|E].
  - rewrite bool_decide_eq_true_2 in Hp by done.
    destruct (find_function_by_name find (sa_pkg a) (sa_func a)) as [h|] eqn:Eh; [|done]. cbn in Hp. injection Hp as <-.
    apply find_some in Eh as [Hn Hf]. by eapply st_helper.
  - rewrite bool_decide_eq_false_2 in Hp by done. injection Hp as <-. by eapply st_assigned.
Qed.
Lemma ident_steps scope v n b : s_kind v = SIdent → step n (AtVal scope v) b →
  n = 1 ∧ ∃ a, a ∈ assigned scope v ∧ assign_place scope a = Some b.
Proof.
  intros Hk Hs. inversion Hs as [|? ? as_ a Hl Hki Has Ha Hc|? ? as_ a h Hl Hki Has Ha Hc Hn Hf|? ? nm h Hl Hki Hnm Hf]; subst.
  - split; [done|]. exists a. split; [apply elem_of_assigned; eauto|]. unfold assign_place.
    by rewrite bool_decide_eq_false_2.
  - split; [done|]. exists a. split; [apply elem_of_assigned; eauto|]. unfold assign_place.
    rewrite bool_decide_eq_true_2 by done. by rewrite (proj2 (find_some _ _ _) (conj Hn Hf)).
  - congruence.
Qed.

Lemma runs_ok fuel :
  (∀ h d st b st', known h → ret fuel (Some h) d st = Some (b, st') → run_ok (AtFun h) d st b st') ∧
  (∀ v f d st b st', val fuel v f d st = Some (b, st') → run_ok (AtVal f v) d st b st').
Proof.
  induction fuel as [|fuel [IHr IHv]].
  - split; [|done]. intros h d st b st' Hk E. cbn [return_field_statuses] in E.
    destruct (decide (max_mapper_depth < d)) as [Hd|Hd].
    { rewrite bool_decide_eq_true_2 in E by done. injection E as <- <-. split; [done|]. split; [done|]. split; [tauto|].
      split; [done|]. intros _. right. exists 0, h. split; [lia|constructor]. }
    rewrite (bool_decide_eq_false_2 (max_mapper_depth < d)) in E by done.
    destruct (decide (fn_id h ∈ st.2)) as [Hi|Hi].
    { rewrite bool_decide_eq_true_2 in E by done. injection E as <- <-. split; [done|]. split; [done|]. split; [tauto|].
      split; [|done]. intros _. split; [by constructor|]. intros h' _ H1 H2. done. }
    rewrite bool_decide_eq_false_2 in E by done. done.
  - split.
    + intros h d st b st' Hk E. rewrite ret_eq in E.
      destruct (decide (max_mapper_depth < d)) as [Hd|Hd].
      { rewrite bool_decide_eq_true_2 in E by done. injection E as <- <-. split; [done|]. split; [done|]. split; [tauto|].
        split; [done|]. intros _. right. exists 0, h. split; [lia|constructor]. }
      rewrite (bool_decide_eq_false_2 (max_mapper_depth < d)) in E by done.
      destruct (decide (fn_id h ∈ st.2)) as [Hi|Hi].
      { rewrite bool_decide_eq_true_2 in E by done. injection E as <- <-. split; [done|]. split; [done|]. split; [tauto|].
        split; [|done]. intros _. split; [by constructor|]. intros h' _ H1 H2. done. }
      rewrite bool_decide_eq_false_2 in E by done.
      apply (residues_ok _ (λ v, Some (AtVal h v)) d) in E as (I1 & I2 & I3 & I4 & I5).
      2: { intros v _ st1 b1 st1' E1. by apply IHv in E1. }
      cbn [fst snd] in *. split; [done|]. split; [set_solver|]. split; [|split].
      * intros s Hs. apply I3 in Hs as [Hs|(v & p & n & g & w & Hv & [= <-] & Hst & Hset)]; [by left|].
        right. exists n, g, w. split; [|done]. eapply steps_zero; [|exact Hst]. constructor. by apply elem_of_concat_returned.
      * intros Hb. destruct (I4 Hb) as [C X]. split; [constructor; set_solver|].
        intros h' Hk' Hin Hni. destruct (decide (fn_id h' = fn_id h)) as [Hid|Hid].
        -- apply known_id in Hid as ->; [|done..]. intros v Hv. eapply C; [|reflexivity]. by apply elem_of_concat_returned.
        -- apply X; [done|done|]. set_solver.
      * intros Hb. destruct (I5 Hb) as (v & p & Hv & [= <-] & H).
        apply elem_of_concat_returned in Hv. destruct H as [(n & g & w & Hst & Ho)|(n & g & Hn & Hst)].
        -- left. exists n, g, w. split; [|done]. eapply steps_zero; [by constructor|done].
        -- right. exists n, g. split; [done|]. eapply steps_zero; [by constructor|done].
    + intros v f d st b st' E. rewrite val_eq in E. destruct (composite_lit_of v) as [lit|] eqn:El.
      { pose proof El as Hlit. apply composite_spec in Hlit.
        assert (∀ n b, ¬ step n (AtVal f v) b) as Hno.
        { intros n q Hs. inversion Hs as [|? ? ? ? Hl|? ? ? ? ? Hl|? ? ? ? Hl]; subst; by apply (Hl lit). }
        destruct (struct_field_value types pkgs lit field f) as [fv|] eqn:Ef.
        2: { injection E as <- <-. split; [done|]. split; [done|]. split; [tauto|]. split; [|done]. intros _. split.
             - constructor.
               + intros s (l & fv & Hl & Hf & _). apply composite_spec in Hl. rewrite El in Hl. injection Hl as <-. congruence.
               + intros (l & fv & Hl & Hf & _). apply composite_spec in Hl. rewrite El in Hl. injection Hl as <-. congruence.
               + intros n q Hs. by apply Hno in Hs.
             - intros h _ H1 H2. done. }
        destruct (status_code_of_value map_status fv) as [s|] eqn:Es.
        - injection E as <- <-. cbn [fst snd]. split; [set_solver|]. split; [done|]. split; [|split; [|done]].
          + intros s' Hs'. cbn [fst] in Hs'. apply elem_of_union in Hs' as [->%elem_of_singleton|Hs']; [|by left].
            right. exists 0, f, v. split; [constructor|]. exists lit, fv. split; [done|]. split; [done|]. by apply status_spec.
          + intros _. split; [|intros h _ H1 H2; done]. constructor.
            * intros s' (l & fv' & Hl & Hf & Hs'). apply composite_spec in Hl. rewrite El in Hl. injection Hl as <-.
              cbn in Hf. rewrite Ef in Hf. injection Hf as <-. apply status_spec in Hs'. assert (s' = s) as -> by congruence. set_solver.
            * intros (l & fv' & Hl & Hf & Hs'). apply composite_spec in Hl. rewrite El in Hl. injection Hl as <-.
              cbn in Hf. rewrite Ef in Hf. injection Hf as <-. apply (Hs' s). by apply status_spec.
            * intros n q Hs. by apply Hno in Hs.
        - injection E as <- <-. split; [done|]. split; [done|]. split; [tauto|]. split; [done|]. intros _. left.
          exists 0, f, v. split; [constructor|]. exists lit, fv. split; [done|]. split; [done|]. by apply status_none. }
      assert (∀ s, ¬ sets f v s) as Hns.
      { intros s (l & fv & Hl & _). apply composite_spec in Hl. congruence. }
      assert (¬ leaves_open f v) as Hno.
      { intros (l & fv & Hl & _). apply composite_spec in Hl. congruence. }
      assert ((∀ n q, ¬ step n (AtVal f v) q) → Some (false, st) = Some (b, st') → run_ok (AtVal f v) d st b st') as Hstop.
      { intros Hs Eq. injection Eq as <- <-. split; [done|]. split; [done|]. split; [tauto|]. split; [|done]. intros _.
        split; [|intros h _ H1 H2; done]. constructor; [by intros s ?%Hns|done|]. intros n q Hq. by apply Hs in Hq. }
      destruct (s_kind v) eqn:Ek.
      all: try (apply Hstop; [|exact E]; intros n q Hs;
                inversion Hs as [|? ? ? ? Hl Hki|? ? ? ? ? Hl Hki|? ? ? ? Hl Hki]; subst; congruence).
      * destruct (decide (callee_name_of (s_fn v) = "")) as [En|En].
        { rewrite bool_decide_eq_true_2 in E by done. apply Hstop; [|exact E]. intros n q Hs.
          inversion Hs as [|? ? ? ? Hl Hki|? ? ? ? ? Hl Hki|? ? nm ? Hl Hki Hnm]; subst; try congruence.
          pose proof Hnm as [Hne _]. apply callee_name_spec in Hnm; congruence. }
        rewrite bool_decide_eq_false_2 in E by done.
        destruct (find_function_by_name find (sf_pkg f) (callee_name_of (s_fn v))) as [h|] eqn:Eh.
        2: { assert (Some (false, st) = Some (b, st')) as E' by (rewrite <- E; by destruct fuel).
             apply Hstop; [|exact E']. intros n q Hs.
             inversion Hs as [|? ? ? ? Hl Hki|? ? ? ? ? Hl Hki|? ? nm h Hl Hki Hnm Hf]; subst; try congruence.
             pose proof Hnm as [Hne _]. apply callee_name_spec in Hnm; [|done]. subst nm.
             rewrite (proj2 (find_some _ _ _) (conj En Hf)) in Eh. done. }
        pose proof Eh as Ef. apply find_some in Ef as [_ Ef].
        assert (step 1 (AtVal f v) (AtFun h)) as Hst.
        { eapply st_call; [by apply composite_none|done| |exact Ef]. by apply callee_name_spec. }
        apply IHr in E as (I1 & I2 & I3 & I4 & I5); [|by eapply known_find].
        split; [done|]. split; [done|]. split; [|split].
        -- intros s Hs. apply I3 in Hs as [Hs|(n & g & w & Hw & Hset)]; [by left|]. right. exists (S n), g, w.
           split; [by eapply steps_one|done].
        -- intros Hb. destruct (I4 Hb) as [C X]. split; [|done]. constructor; [by intros s ?%Hns|done|].
           intros n q Hs. inversion Hs as [|? ? ? ? Hl Hki|? ? ? ? ? Hl Hki|? ? nm h' Hl Hki Hnm Hf]; subst; try congruence.
           pose proof Hnm as [Hne _]. apply callee_name_spec in Hnm; [|done]. subst nm.
           assert (h' = h) as -> by congruence. done.
        -- intros Hb. destruct (I5 Hb) as [(n & g & w & Hw & Ho)|(n & g & Hn & Hw)].
           ++ left. exists (S n), g, w. split; [by eapply steps_one|done].
           ++ right. exists (S n), g. split; [lia|by eapply steps_one].
      * apply (residues_ok _ (assign_place f) (S d)) in E as (I1 & I2 & I3 & I4 & I5).
        2: { intros a _ st1 b1 st1' E1. unfold assign_body in E1. unfold assign_place.
             destruct (decide (s_kind (sa_value a) = SCall)) as [Ec|Ec].
             - rewrite bool_decide_eq_true_2 in E1 by done. rewrite bool_decide_eq_true_2 by done.
               destruct (find_function_by_name find (sa_pkg a) (sa_func a)) as [h|] eqn:Eh; cbn [fmap option_fmap option_map].
               + apply IHr in E1; [done|]. apply find_some in Eh as [_ Eh]. by eapply known_find.
               + assert (Some (false, st1) = Some (b1, st1')) as E' by (rewrite <- E1; by destruct fuel).
                 injection E' as <- <-. done.
             - rewrite bool_decide_eq_false_2 in E1 by done. rewrite bool_decide_eq_false_2 by done. by apply IHv in E1. }
        split; [done|]. split; [done|]. split; [|split].
        -- intros s Hs. apply I3 in Hs as [Hs|(a & p & n & g & w & Ha & Hp & Hw & Hset)]; [by left|]. right. exists (S n), g, w.
           split; [|done]. eapply steps_one; [by eapply assign_step|done].
        -- intros Hb. destruct (I4 Hb) as [C X]. split; [|done]. constructor; [by intros s ?%Hns|done|].
           intros n q Hs. apply ident_steps in Hs as (_ & a & Ha & Hp); [|done]. by eapply C.
        -- intros Hb. destruct (I5 Hb) as (a & p & Ha & Hp & [(n & g & w & Hw & Ho)|(n & g & Hn & Hw)]).
           ++ left. exists (S n), g, w. split; [|done]. eapply steps_one; [by eapply assign_step|done].
           ++ right. exists (S n), g. split; [lia|]. eapply steps_one; [by eapply assign_step|done].
Qed.

(** A whole run, from the empty state, that leaves no residue covers everything. *)
Lemma covered_all S N : (∀ h, known h → fn_id h ∈ N → expanded S N h) →
  ∀ n p q, steps n p q → (∀ h, p = AtFun h → known h) → covered S N p → covered S N q.
Proof.
  intros HX n p q Hs. induction Hs as [a|n m a b c Hab Hbc IH]; intros Hk Hc; [done|]. apply IH.
  - intros h ->. inversion Hab; subst; by eapply known_find.
  - destruct Hc as [h Hh|f v Hset Ho Hst].
    + inversion Hab; subst. apply HX; [by apply Hk|done|done].
    + by eapply Hst.
Qed.

Lemma mapper_ok fuel m b st : known m → ret fuel (Some m) 0 (∅, ∅) = Some (b, st) →
  (∀ s, s ∈ st.1 → can_answer map_status find field_of m s) ∧
  (b = false → (∀ s, can_answer map_status find field_of m s → s ∈ st.1) ∧ ¬ can_be_open map_status find field_of m) ∧
  (b = true → can_be_open map_status find field_of m ∨ deeper_than find max_mapper_depth m).
Proof.
  intros Hk E. apply (proj1 (runs_ok fuel)) in E as (_ & _ & I3 & I4 & I5); [|done]. cbn [fst snd] in *.
  split; [|split].
  - intros s Hs. apply I3 in Hs as [Hs|(n & g & v & Hst & Hset)]; [set_solver|]. by exists n, g, v.
  - intros Hb. destruct (I4 Hb) as [C X].
    assert (∀ n g v, steps n (AtFun m) (AtVal g v) → covered st.1 st.2 (AtVal g v)) as Hall.
    { intros n g v Hst. eapply covered_all; [|exact Hst| |exact C].
      - intros h Hh Hin. apply X; [done|done|set_solver].
      - intros h [= <-]. done. }
    split.
    + intros s (n & g & v & Hst & Hset). specialize (Hall n g v Hst). inversion Hall; subst; auto.
    + intros (n & g & v & Hst & Ho). specialize (Hall n g v Hst). inversion Hall; subst; auto.
  - intros Hb. destruct (I5 Hb) as [(n & g & v & Hst & Ho)|(n & h & Hn & Hst)].
    + left. by exists n, g, v.
    + right. exists n, h. split; [lia|done].
Qed.

(** ** Ending *)
Lemma residues_mono {A} (f g : A → sstate → option (bool * sstate)) : (∀ a st r, f a st = Some r → g a st = Some r) →
  ∀ l st r, residues f l st = Some r → residues g l st = Some r.
Proof.
  intros H l. induction l as [|a l IH]; intros st r E; [done|]. cbn [residues] in *.
  destruct (f a st) as [[b1 st1]|] eqn:E1; [|done]. rewrite (H _ _ _ E1). cbn [mbind option_bind] in *.
  destruct (residues f l st1) as [r2|] eqn:E2; [|done]. by rewrite (IH _ _ E2).
Qed.
Lemma fuel_mono fuel : ∀ fuel', fuel ≤ fuel' →
  (∀ h d st r, ret fuel h d st = Some r → ret fuel' h d st = Some r) ∧
  (∀ v f d st r, val fuel v f d st = Some r → val fuel' v f d st = Some r).
Proof.
  induction fuel as [|fuel IH]; intros fuel' Hle.
  - split; [|done]. intros [h|] d st r E; [|by destruct fuel']. cbn [return_field_statuses] in E. destruct fuel' as [|fuel']; [done|].
    rewrite ret_eq. destruct (bool_decide (max_mapper_depth < d)); [done|]. destruct (bool_decide (fn_id h ∈ st.2)); done.
  - destruct fuel' as [|fuel']; [lia|]. destruct (IH fuel' ltac:(lia)) as [IHr IHv]. split.
    + intros [h|] d st r E; [|done]. rewrite ret_eq in E. rewrite ret_eq.
      destruct (bool_decide (max_mapper_depth < d)); [done|]. destruct (bool_decide (fn_id h ∈ st.2)); [done|].
      eapply residues_mono; [|exact E]. cbn beta. intros v st1 r1. apply IHv.
    + intros v f d st r E. rewrite val_eq in E. rewrite val_eq. destruct (composite_lit_of v); [done|].
      destruct (s_kind v); try done.
      * destruct (bool_decide (callee_name_of (s_fn v) = "")); [done|]. by apply IHr.
      * eapply residues_mono; [|exact E]. intros a st1 r1. unfold assign_body.
        destruct (bool_decide (s_kind (sa_value a) = SCall)); [apply IHr|apply IHv].
Qed.

Lemma residues_total {A} (body : nat → A → sstate → option (bool * sstate)) :
  (∀ n n' a st r, n ≤ n' → body n a st = Some r → body n' a st = Some r) →
  ∀ l, (∀ a, a ∈ l → ∀ st, ∃ n, is_Some (body n a st)) → ∀ st, ∃ n, is_Some (residues (body n) l st).
Proof.
  intros Hmono l. induction l as [|a l IH]; intros H st; [exists 0; eexists; reflexivity|].
  destruct (H a ltac:(left) st) as (n1 & [b1 st1] & E1).
  destruct (IH ltac:(intros; apply H; by right) st1) as (n2 & [b2 st2] & E2).
  exists (n1 + n2). exists (b1 || b2, st2). cbn [residues].
  rewrite (Hmono n1 (n1 + n2) _ _ _ ltac:(lia) E1). cbn [mbind option_bind].
  assert (residues (body (n1 + n2)) l st1 = Some (b2, st2)) as ->; [|done].
  eapply residues_mono; [|exact E2]. intros a' st' r. apply Hmono. lia.
Qed.

Lemma runs_end : (∀ h, known h → no_circles h) → ∀ k d, 9 ≤ d + k → ∀ h st, (∀ f, h = Some f → known f) →
  ∃ n, is_Some (ret n h d st).
Proof.
  intros Hc k. induction k as [|k IHk]; intros d Hd h st Hh.
  - exists 0. destruct h as [h|]; [|by eexists]. cbn [return_field_statuses].
    rewrite bool_decide_eq_true_2 by (unfold max_mapper_depth; lia). by eexists.
  - destruct h as [h|]; [|exists 0; by eexists].
    destruct (decide (max_mapper_depth < d)) as [Hm|Hm].
    { exists 0. cbn [return_field_statuses]. rewrite bool_decide_eq_true_2 by done. by eexists. }
    destruct (decide (fn_id h ∈ st.2)) as [Hi|Hi].
    { exists 0. cbn [return_field_statuses]. rewrite (bool_decide_eq_false_2 (max_mapper_depth < d)) by done.
      rewrite bool_decide_eq_true_2 by done. by eexists. }
    destruct (Hc h (Hh h eq_refl)) as [rank Hrank].
    assert (∀ r v, (s_kind v = SIdent → rank (s_name v) < r) → ∀ d', d ≤ d' → ∀ st, ∃ n, is_Some (val n v h d' st)) as Hval.
    { intros r. induction r as [|r IHr]; intros v Hv d' Hd' st'.
      all: destruct (composite_lit_of v) as [lit|] eqn:El;
        [exists 1; rewrite val_eq, El; destruct (struct_field_value types pkgs lit field h) as [fv|]; [|by eexists];
         destruct (status_code_of_value map_status fv); by eexists|].
      all: destruct (s_kind v) eqn:Ek; try (exists 1; rewrite val_eq, El, Ek; by eexists).
      all: try (specialize (Hv eq_refl); lia).
      all: try (destruct (decide (callee_name_of (s_fn v) = "")) as [En|En];
        [exists 1; rewrite val_eq, El, Ek, bool_decide_eq_true_2 by done; by eexists|];
        destruct (IHk (S d') ltac:(lia) (find_function_by_name find (sf_pkg h) (callee_name_of (s_fn v))) st') as (n & Hn);
        [intros f Hf; apply find_some in Hf as [_ Hf]; by eapply known_find|];
        exists (S n); rewrite val_eq, El, Ek, bool_decide_eq_false_2 by done; done).
      destruct (residues_total (λ n, assign_body n h d')) with (l := assigned h v) (st := st') as (n & Hn).
      - intros n n' a st1 r1 Hle. unfold assign_body. destruct (fuel_mono n n' Hle) as [F1 F2].
        destruct (bool_decide (s_kind (sa_value a) = SCall)); [apply F1|apply F2].
      - intros a Ha st1. unfold assign_body. destruct (decide (s_kind (sa_value a) = SCall)) as [Ec|Ec].
        + rewrite bool_decide_eq_true_2 by done. apply IHk; [lia|].
          intros f Hf. apply find_some in Hf as [_ Hf]. by eapply known_find.
        + rewrite bool_decide_eq_false_2 by done. apply IHr; [|lia]. intros Hid.
          apply elem_of_assigned in Ha as (as_ & Has & Ha). specialize (Hrank _ _ _ Has Ha Hid).
          specialize (Hv eq_refl). lia.
      - exists (S n). rewrite val_eq, El, Ek. done. }
    destruct (residues_total (λ n v st, val n v h d st)) with (l := concat (sf_returns h)) (st := (st.1, {[ fn_id h ]} ∪ st.2)) as (n & Hn).
    + intros n n' v st1 r1 Hle. apply (proj2 (fuel_mono n n' Hle)).
    + intros v _ st1. apply (Hval (S (rank (s_name v)))); [lia|lia].
    + exists (S n). rewrite ret_eq. rewrite (bool_decide_eq_false_2 (max_mapper_depth < d)) by done.
      rewrite bool_decide_eq_false_2 by done. done.
Qed.
End stat.
