(** * C103: positions and the names of closures. *)
From Coq Require Import Ascii ZArith Lia.
From stdpp Require Import sorting.
From stdpp Require Import base numbers list strings gmap.
From Verif Require Import StrLib DecLib StringPoolModel StringPoolSpec StringPoolProofs PairModel PairProofs PlaceModel.

(** ** Specification *)
(** go/token's Position.String. *)
Definition library_text (p : place) : string :=
  let s := if decide (0 < pl_line p)%Z
           then (if decide (pl_file p = "") then "" else pl_file p +:+ ":") +:+ itoa (pl_line p) +:+ (if decide (pl_col p = 0%Z) then "" else ":" +:+ itoa (pl_col p))
           else pl_file p in
  if decide (s = "") then "-" else s.
(** A history that asks one file set only. *)
Definition one_set (f : Z → place) (h : list pop) : Prop := ∀ g pos, PAsk g pos ∈ h → g = f.
(** Elements of a path. *)
Definition element (s : string) : Prop := s ≠ "" ∧ contains_byte "/" s = false.

(** ** Proofs *)
Lemma itoa_nonempty z : itoa z ≠ "".
Proof. intros E. assert (H : atoi (itoa z) = z) by apply atoi_itoa. rewrite E in H. cbn in H. subst z. done. Qed.
(** C103a: the text of a position is the library's. *)
Theorem C103_library p : format_position p = library_text p.
Proof.
  unfold format_position, library_text, pl_valid. destruct (decide (0 < pl_line p)%Z) as [H|H].
  - rewrite bool_decide_eq_true_2 by done. cbn zeta. match goal with |- _ = (if decide (?s = "") then _ else _) => rewrite (decide_False (P := s = "")) end.
    + destruct (decide (pl_file p = "")) as [F|F]; [rewrite F|]; destruct (decide (pl_col p = 0%Z)); rewrite ?sapp_nil, ?sapp_assoc; done.
    + intros E. apply sapp_eq_nil in E as [_ E]. apply sapp_eq_nil in E as [E _]. by apply itoa_nonempty in E.
  - rewrite bool_decide_eq_false_2 by done. done.
Qed.
Lemma cut_last c a a' b b' : contains_byte c b = false → contains_byte c b' = false → a +:+ String c b = a' +:+ String c b' → a = a' ∧ b = b'.
Proof. intros H H' E. pose proof (split_last_app c a b H) as S1. pose proof (split_last_app c a' b' H') as S2. rewrite E in S1. rewrite S2 in S1. split; congruence. Qed.
Lemma contains_app c a b : contains_byte c (a +:+ b) = contains_byte c a || contains_byte c b.
Proof. unfold contains_byte. apply str_any_app. Qed.
Lemma colon_itoa z : contains_byte ":" (itoa z) = false.
Proof. by apply contains_itoa. Qed.
(** C103b: positions with a line and a column have the same text only if they are the same. *)
Theorem C103_injective p q : (0 < pl_line p)%Z → (0 < pl_line q)%Z → pl_col p ≠ 0%Z → pl_col q ≠ 0%Z → format_position p = format_position q → p = q.
Proof.
  intros Lp Lq Cp Cq. unfold format_position, pl_valid. rewrite !bool_decide_eq_true_2 by done. cbn zeta. rewrite (decide_False (P := pl_col p = 0%Z)), (decide_False (P := pl_col q = 0%Z)) by done. rewrite !(sapp_assoc _ ":" _). change (":" +:+ itoa (pl_col p)) with (String ":" (itoa (pl_col p))). change (":" +:+ itoa (pl_col q)) with (String ":" (itoa (pl_col q))). intros E.
  apply cut_last in E as [E Ec]; [|apply colon_itoa..]. apply itoa_inj in Ec. destruct p as [pf pl pc], q as [qf ql qc]. cbn in *. subst qc.
  destruct (decide (pf = "")) as [->|Np], (decide (qf = "")) as [->|Nq].
  - apply sapp_inj_l, itoa_inj in E. by subst.
  - exfalso. change ("" +:+ itoa pl) with (itoa pl) in E. assert (X : contains_byte ":" (itoa pl) = true); [rewrite E, !contains_app; cbn; by rewrite orb_true_r|]. by rewrite colon_itoa in X.
  - exfalso. change ("" +:+ itoa ql) with (itoa ql) in E. assert (X : contains_byte ":" (itoa ql) = true); [rewrite <- E, !contains_app; cbn; by rewrite orb_true_r|]. by rewrite colon_itoa in X.
  - rewrite !(sapp_assoc _ ":" _) in E. change (":" +:+ itoa pl) with (String ":" (itoa pl)) in E. change (":" +:+ itoa ql) with (String ":" (itoa ql)) in E. apply cut_last in E as [-> E]; [|apply colon_itoa..]. apply itoa_inj in E. by subst.
Qed.
(** C103c: without columns they need not be. *)
Theorem C103_columnless_refuted : ∃ p q, pl_valid p = true ∧ pl_valid q = true ∧ p ≠ q ∧ format_position p = format_position q.
Proof. exists (Place "a:1" 2 0), (Place "a" 1 2). by vm_compute. Qed.

Lemma format_nonempty p : pl_valid p = true → format_position p ≠ "".
Proof. intros H E. rewrite C103_library in E. unfold library_text in E. cbn zeta in E. destruct (decide _) as [|N] in E; [|done]. done. Qed.
Lemma pool_get_grows p s : pool_inv p → pool_values p `prefix_of` pool_values (pool_get p s).1.
Proof. intros H. change (fst (pool_get p s)) with ((pool_get p s).1). rewrite pool_get_values by done. apply intern_prefix. Qed.
Section history.
  Context (f : Z → place).
  Definition good (st : pstate) : Prop := pool_inv (ps_pool st) ∧ ∀ pos i, ps_cache st !! pos = Some i → pos ≠ 0%Z ∧ pl_valid (f pos) = true ∧ ∃ n, i = Z.of_nat n ∧ pool_values (ps_pool st) !! n = Some (format_position (f pos)).
  Lemma good_grow st pl c : good st → pool_inv pl → pool_values (ps_pool st) `prefix_of` pool_values pl → c = ps_cache st → good (PState pl c).
  Proof. intros [_ H] Hp Hg ->. split; [done|]. cbn. intros pos i Hi. destruct (H pos i Hi) as (H1 & H2 & n & Hn & Hl). split; [done|]. split; [done|]. exists n. split; [done|]. by eapply prefix_lookup. Qed.
  (** What an answer has to be. *)
  Definition right_answer (pl : pool) (o : pop) (i : Z) : Prop :=
    match o with
    | PAsk _ pos => (pos ≠ 0%Z ∧ pl_valid (f pos) = true ∧ ∃ n, i = Z.of_nat n ∧ pool_values pl !! n = Some (format_position (f pos))) ∨ ((pos = 0%Z ∨ pl_valid (f pos) = false) ∧ i = (-1)%Z)
    | PText _ => True
    end.
  Lemma step_good st o : good st → (∀ g pos, o = PAsk g pos → g = f) → good (pstep st o).1 ∧ pool_values (ps_pool st) `prefix_of` pool_values (ps_pool (pstep st o).1) ∧ right_answer (ps_pool (pstep st o).1) o (pstep st o).2.
  Proof.
    intros Hg Ho. pose proof Hg as [Hi Hc]. destruct o as [g pos|s]; cbn [pstep].
    - rewrite (Ho g pos eq_refl). clear Ho g. unfold position_index. destruct (decide (pos = 0%Z)) as [->|N]; [split; [done|]; split; [done|]; right; split; [by left|done]|].
      destruct (ps_cache st !! pos) as [i|] eqn:E; [split; [done|]; split; [done|]; left; by apply Hc|]. cbn zeta. destruct (pl_valid (f pos)) eqn:V; [|split; [done|]; split; [done|]; right; split; [by right|done]].
      pose proof (pool_get_inv (ps_pool st) (format_position (f pos)) Hi) as Hi'. pose proof (pool_get_grows (ps_pool st) (format_position (f pos)) Hi) as Hp. destruct (pool_get_index (ps_pool st) (format_position (f pos)) Hi (format_nonempty _ V)) as (n & Hn & Hl).
      destruct (pool_get (ps_pool st) (format_position (f pos))) as [pl i] eqn:G. cbn [fst snd] in *. split.
      + split; [done|]. cbn. intros pos' i' Hl'. destruct (decide (pos' = pos)) as [->|N'].
        * rewrite lookup_insert in Hl'. assert (i' = i) as -> by congruence. split; [done|]. split; [done|]. by exists n.
        * rewrite lookup_insert_ne in Hl' by done. destruct (Hc pos' i' Hl') as (H1 & H2 & n' & Hn' & Hl2). split; [done|]. split; [done|]. exists n'. split; [done|]. by eapply prefix_lookup.
      + split; [done|]. cbn. left. split; [done|]. split; [done|]. by exists n.
    - pose proof (pool_get_inv (ps_pool st) s Hi) as Hi'. pose proof (pool_get_grows (ps_pool st) s Hi) as Hp. destruct (pool_get (ps_pool st) s) as [pl i]. cbn [fst snd] in *. split; [by eapply good_grow|]. by split.
  Qed.
  Lemma right_grow pl pl' o i : pool_values pl `prefix_of` pool_values pl' → right_answer pl o i → right_answer pl' o i.
  Proof. intros Hg. destruct o as [g pos|s]; [|done]. intros [(H1 & H2 & n & Hn & Hl)|H]; [left|by right]. split; [done|]. split; [done|]. exists n. split; [done|]. by eapply prefix_lookup. Qed.
  Lemma run_good h : ∀ st, good st → one_set f h → good (prun st h).1 ∧ pool_values (ps_pool st) `prefix_of` pool_values (ps_pool (prun st h).1) ∧ Forall2 (right_answer (ps_pool (prun st h).1)) h (prun st h).2.
  Proof.
    induction h as [|o h IH]; intros st Hg Ho; [split; [done|]; split; [done|constructor]|]. cbn [prun].
    destruct (step_good st o Hg) as (G1 & P1 & A1). { intros g pos ->. apply (Ho g pos). by left. }
    destruct (pstep st o) as [st1 i]. cbn [fst snd] in *. destruct (IH st1 G1) as (G2 & P2 & A2). { intros g pos Hin. apply (Ho g pos). by right. }
    destruct (prun st1 h) as [st2 is]. cbn [fst snd] in *. split; [done|]. split; [by etrans|]. constructor; [by eapply right_grow|done].
  Qed.
End history.
(** C103d: in every history of one file set, an index answered for a position leads to its text; -1 is answered exactly for positions the set does not have. *)
Theorem C103_index f h : one_set f h →
  let '(st, is) := prun (PState new_pool ∅) h in
  length is = length h ∧
  ∀ k g pos i, h !! k = Some (PAsk g pos) → is !! k = Some i →
    (pos ≠ 0%Z ∧ (0 < pl_line (f pos))%Z → (0 ≤ i)%Z ∧ pool_get_string (ps_pool st) i = library_text (f pos)) ∧
    (pos = 0%Z ∨ ¬ (0 < pl_line (f pos))%Z → i = (-1)%Z).
Proof.
  intros Ho. destruct (run_good f h (PState new_pool ∅)) as (_ & _ & A); [|done|].
  { split; [apply pool_inv_new|]. cbn. intros pos i Hi. by rewrite lookup_empty in Hi. }
  destruct (prun (PState new_pool ∅) h) as [st is]. cbn [fst snd] in A. split; [symmetry; by eapply Forall2_length|]. intros k g pos i Hk Hi. pose proof (Forall2_lookup_lr _ _ _ _ _ _ A Hk Hi) as R. cbn in R. unfold pl_valid in R. split.
  - intros [N V]. destruct R as [(_ & _ & n & -> & Hl)|[[?|R] _]]; [|done|by apply bool_decide_eq_false in R]. split; [lia|]. rewrite <- C103_library. by apply pool_get_string_lookup.
  - intros H. destruct R as [(R1 & R2 & _)|[_ ->]]; [|done]. apply bool_decide_eq_true in R2. by destruct H.
Qed.
(** C103d2: asked for its text, a position of the set answers with it after every history, and any other with the empty text. *)
Theorem C103_text f h pos : one_set f h →
  (position_string (prun (PState new_pool ∅) h).1 f pos).2 = if decide (pos ≠ 0%Z ∧ (0 < pl_line (f pos))%Z) then library_text (f pos) else "".
Proof.
  intros Ho. destruct (run_good f h (PState new_pool ∅)) as (G & _ & _); [|done|].
  { split; [apply pool_inv_new|]. cbn. intros q i Hi. by rewrite lookup_empty in Hi. }
  destruct (step_good f (prun (PState new_pool ∅) h).1 (PAsk f pos) G) as (_ & _ & R). { by intros g q [= -> ->]. }
  unfold position_string. cbn [pstep] in R. destruct (position_index _ f pos) as [st i]. cbn [fst snd] in *. cbn in R. unfold pl_valid in R.
  destruct R as [(R1 & R2 & n & -> & Hl)|[R ->]].
  - apply bool_decide_eq_true in R2. rewrite decide_False by lia. rewrite decide_True by done. rewrite <- C103_library. by apply pool_get_string_lookup.
  - rewrite (decide_True (P := (-1 < 0)%Z)) by lia. destruct (decide _) as [[N V]|]; [|done]. destruct R as [?|R]; [done|]. by apply bool_decide_eq_false in R.
Qed.
Example C103_text_example : (position_string (prun (PState new_pool ∅) []).1 (λ p, Place "a.go" p 1) 3).2 = "a.go:3:1" ∧ (position_string (prun (PState new_pool ∅) [PText "x"]).1 (λ p, Place "a.go" p 1) 0).2 = "".
Proof. by vm_compute. Qed.
Print Assumptions C103_text.
(** C103e: two positions get one index exactly if they have one text. *)
Theorem C103_same_index f h j k g g' pos pos' i i' : one_set f h → h !! j = Some (PAsk g pos) → h !! k = Some (PAsk g' pos') → (prun (PState new_pool ∅) h).2 !! j = Some i → (prun (PState new_pool ∅) h).2 !! k = Some i' →
  pos ≠ 0%Z → pos' ≠ 0%Z → (0 < pl_line (f pos))%Z → (0 < pl_line (f pos'))%Z → i = i' ↔ library_text (f pos) = library_text (f pos').
Proof.
  intros Ho Hj Hk Hi Hi' N N' L L'. destruct (run_good f h (PState new_pool ∅)) as ((Hp & _) & _ & A); [|done|].
  { split; [apply pool_inv_new|]. cbn. intros p x Hx. by rewrite lookup_empty in Hx. }
  pose proof (Forall2_lookup_lr _ _ _ _ _ _ A Hj Hi) as R. pose proof (Forall2_lookup_lr _ _ _ _ _ _ A Hk Hi') as R'. cbn in R, R'. unfold pl_valid in R, R'. rewrite <- !C103_library.
  destruct R as [(_ & _ & n & -> & Hl)|[[?|R] _]]; [|done|by apply bool_decide_eq_false in R]. destruct R' as [(_ & _ & n' & -> & Hl')|[[?|R'] _]]; [|done|by apply bool_decide_eq_false in R']. destruct Hp as (Hnd & _). split.
  - intros E. assert (n = n') as -> by lia. congruence.
  - intros E. f_equal. rewrite E in Hl. by eapply NoDup_lookup.
Qed.
(** C103f: a position another file set was asked for before gets that one's text. *)
Theorem C103_other_set_refuted : ∃ f g pos, pl_valid (g pos) = false ∧ let '(st, is) := prun (PState new_pool ∅) [PAsk f pos; PAsk g pos] in ∃ i, is !! 1 = Some i ∧ pool_get_string (ps_pool st) i = format_position (f pos).
Proof. exists (λ _, Place "a.go" 3 4), (λ _, Place "" 0 0), 7%Z. split; [done|]. vm_compute. by exists 0%Z. Qed.

(** ** File names *)
Lemma rel_under base rest : rel_path base (base ++ rest) = rest.
Proof. induction base as [|b base IH]; [done|]. cbn. by rewrite decide_True. Qed.
Lemma rel_cases base : ∀ file, (∃ rest, file = base ++ rest ∧ rel_path base file = rest) ∨ ((¬ base `prefix_of` file) ∧ ∃ l, rel_path base file = ".." :: l).
Proof.
  induction base as [|b base IH]; intros file; [left; by exists file|]. destruct file as [|x file].
  - right. split; [intros [k E]; done|]. by eexists.
  - cbn [rel_path]. destruct (decide (b = x)) as [->|N].
    + destruct (IH file) as [(rest & -> & E)|(Hn & l & E)]; [left; by exists rest|right]. split; [|by exists l]. intros [k Ek]. apply Hn. exists k. cbn in Ek. congruence.
    + right. split; [intros [k E]; cbn in E; congruence|]. by eexists.
Qed.
Lemma join_cons x y l : str_join "/" (x :: y :: l) = x +:+ "/" +:+ str_join "/" (y :: l).
Proof. done. Qed.
Lemma dots_join l : has_prefix ".." (str_join "/" (".." :: l)) = true.
Proof. destruct l as [|y l]; [done|]. rewrite join_cons. apply has_prefix_spec. by exists ("/" +:+ str_join "/" (y :: l)). Qed.
(** The name of a file within the module. *)
Definition inner_name (rest : list string) : string := match rest with [] => "." | l => str_join "/" l end.
Lemma stable_inside base rest : has_prefix ".." (inner_name rest) = false → stable_filename (Some base) (base ++ rest) = inner_name rest.
Proof. intros H. unfold stable_filename, rel_text. rewrite rel_under. destruct rest as [|x l]; cbn [inner_name] in *; by rewrite H. Qed.
Lemma has_prefix_head r y : has_prefix ".." r = false → element r → has_prefix ".." (r +:+ "/" +:+ y) = false.
Proof.
  intros H [Hne Hs]. destruct (has_prefix ".." (r +:+ "/" +:+ y)) eqn:E; [exfalso|done]. apply has_prefix_spec in E as [t E]. destruct r as [|a [|b r]]; [done| |].
  - rewrite sapp_cons in E. change (String "." (String "." t)) with (".." +:+ t) in E. injection E as -> E. discriminate E.
  - rewrite !sapp_cons in E. injection E as -> -> E. done.
Qed.
(** C103g: a file of the module has the same name in every checkout: its path from the root. *)
Theorem C103_checkout base base' file rest : element file → has_prefix ".." file = false → stable_filename (Some base) (base ++ file :: rest) = str_join "/" (file :: rest) ∧ stable_filename (Some base') (base' ++ file :: rest) = str_join "/" (file :: rest).
Proof.
  intros He Hd. assert (H : has_prefix ".." (inner_name (file :: rest)) = false). { destruct rest as [|y l]; [done|]. cbn [inner_name]. rewrite join_cons. by apply has_prefix_head. }
  split; by rewrite stable_inside.
Qed.
(** C103h: files of the module have one name only if they are one. *)
Lemma join_inj l : ∀ l', l ≠ [] → l' ≠ [] → Forall element l → Forall element l' → str_join "/" l = str_join "/" l' → l = l'.
Proof.
  assert (cut_first : ∀ a a' b b', contains_byte "/" a = false → contains_byte "/" a' = false → a +:+ String "/" b = a' +:+ String "/" b' → a = a' ∧ b = b').
  { induction a as [|x a IH]; intros a' b b' Ha Ha' E.
    - destruct a' as [|y a']; [by injection E|]. rewrite sapp_cons in E. change ("" +:+ String "/" b) with (String "/" b) in E. injection E as <- E. unfold contains_byte in Ha'. cbn [str_any] in Ha'. by rewrite bool_decide_eq_true_2 in Ha'.
    - destruct a' as [|y a']; [rewrite sapp_cons in E; change ("" +:+ String "/" b') with (String "/" b') in E; injection E as -> E; unfold contains_byte in Ha; cbn [str_any] in Ha; by rewrite bool_decide_eq_true_2 in Ha|].
      rewrite !sapp_cons in E. injection E as -> E. unfold contains_byte in *. cbn [str_any] in Ha, Ha'. apply orb_false_iff in Ha as [_ Ha], Ha' as [_ Ha']. destruct (IH a' b b' Ha Ha' E) as [-> ->]. done. }
  induction l as [|x l IH]; intros l' Hne Hne' Hl Hl' E; [done|]. destruct l' as [|x' l']; [done|]. apply Forall_cons in Hl as [[Hx Sx] Hl], Hl' as [[Hx' Sx'] Hl'].
  destruct l as [|y l], l' as [|y' l'].
  - cbn in E. by subst.
  - exfalso. rewrite join_cons in E. cbn in E. assert (X : contains_byte "/" x = true); [rewrite E, contains_app; cbn; by rewrite orb_true_r|congruence].
  - exfalso. rewrite join_cons in E. cbn [str_join] in E. assert (X : contains_byte "/" x' = true); [rewrite <- E, contains_app; cbn; by rewrite orb_true_r|congruence].
  - rewrite !join_cons in E. apply cut_first in E as [-> E]; [|done|done]. f_equal. apply IH; done.
Qed.
Theorem C103_distinct base file rest file' rest' : Forall element (file :: rest) → Forall element (file' :: rest') → has_prefix ".." file = false → has_prefix ".." file' = false →
  stable_filename (Some base) (base ++ file :: rest) = stable_filename (Some base) (base ++ file' :: rest') → file :: rest = file' :: rest'.
Proof.
  intros He He' Hd Hd' E. pose proof He as He0. pose proof He' as He0'. apply Forall_cons in He0 as [H1 _], He0' as [H1' _]. rewrite (proj1 (C103_checkout base base file rest H1 Hd)), (proj1 (C103_checkout base base file' rest' H1' Hd')) in E. by apply join_inj in E.
Qed.
Lemma behind_last_spec m s r : m ≠ "" → behind_last m s = Some r ↔ ∃ a, s = a +:+ m +:+ r ∧ ∀ a' r', s = a' +:+ m +:+ r' → String.length r ≤ String.length r'.
Proof.
  intros Hm. revert r. induction s as [|c s IH]; intros r; cbn [behind_last].
  - destruct (has_prefix m "") eqn:E; [apply has_prefix_spec in E as [t E]; symmetry in E; by apply sapp_eq_nil in E as [? _]|]. split; [done|]. intros (a & E' & _). symmetry in E'. apply sapp_eq_nil in E' as [_ E']. by apply sapp_eq_nil in E' as [? _].
  - destruct (behind_last m s) as [r0|] eqn:E.
    + split.
      * intros [= <-]. destruct (proj1 (IH r0) eq_refl) as (a & Es & Hl). exists (String c a). split; [by rewrite sapp_cons, <- Es|]. intros [|x a'] r' E'.
        -- assert (L : String.length (String c s) = String.length ("" +:+ m +:+ r')) by (by rewrite E'). rewrite Es in L. cbn in L. change ("" +:+ m +:+ r') with (m +:+ r') in L. rewrite !sapp_length in L. destruct m; [done|]. cbn in L. specialize (Hl a r0 Es).
           destruct (decide (String.length r0 ≤ String.length r')) as [|N]; [done|]. lia.
        -- rewrite sapp_cons in E'. injection E' as _ E'. by eapply Hl.
      * intros (a & Ea & Hl). destruct (proj1 (IH r0) eq_refl) as (a0 & Es & Hl0). f_equal. assert (Lr : String.length r ≤ String.length r0). { apply (Hl (String c a0)). by rewrite sapp_cons, <- Es. }
        destruct a as [|x a].
        -- exfalso. change ("" +:+ m +:+ r) with (m +:+ r) in Ea. assert (L : String.length (String c s) = String.length (m +:+ r)) by (by rewrite Ea). rewrite Es in L. cbn in L. rewrite !sapp_length in L. lia.
        -- rewrite sapp_cons in Ea. injection Ea as _ Ea. assert (Lr' : String.length r0 ≤ String.length r) by (by eapply Hl0). rewrite Es in Ea. assert (La : String.length (a0 +:+ m +:+ r0) = String.length (a +:+ m +:+ r)) by (by rewrite Ea). rewrite !sapp_length in La. apply sapp_inj_len in Ea as [_ Ea]; [|lia]. by apply sapp_inj_l in Ea.
    + assert (Hno : ∀ a t, s ≠ a +:+ m +:+ t).
      { intros a t Ea. assert (∃ r, behind_last m s = Some r) as [? ?]; [|congruence]. clear - Ea Hm. revert a Ea. induction s as [|d s IHs]; intros a Ea; [symmetry in Ea; apply sapp_eq_nil in Ea as [_ Ea]; by apply sapp_eq_nil in Ea as [? _]|]. cbn [behind_last]. destruct (behind_last m s) as [r|] eqn:B; [by exists r|]. destruct a as [|x a].
        - assert (P : has_prefix m (String d s) = true) by (apply has_prefix_spec; exists t; exact Ea). rewrite P. by eexists.
        - rewrite sapp_cons in Ea. injection Ea as _ Ea. destruct (IHs a Ea) as [? ?]. congruence. }
      destruct (has_prefix m (String c s)) eqn:P.
      * apply has_prefix_spec in P as [t Et]. rewrite Et, str_drop_app. split.
        -- intros [= <-]. exists "". split; [done|]. intros [|x a'] r' E'; [change ("" +:+ m +:+ r') with (m +:+ r') in E'; by apply sapp_inj_l in E' as ->|]. rewrite <- Et, sapp_cons in E'. injection E' as _ E'. by apply Hno in E'.
        -- intros ([|x a] & Ea & _); [change ("" +:+ m +:+ r) with (m +:+ r) in Ea; by apply sapp_inj_l in Ea as ->|]. rewrite <- Et, sapp_cons in Ea. injection Ea as _ Ea. by apply Hno in Ea.
      * split; [done|]. intros ([|x a] & Ea & _).
        -- assert (P' : has_prefix m (String c s) = true) by (apply has_prefix_spec; exists r; exact Ea). congruence.
        -- rewrite sapp_cons in Ea. injection Ea as _ Ea. by apply Hno in Ea.
Qed.
(** C103i: a file that is not of the module but in a module cache is named by what is behind it, wherever the cache and the module are; any other keeps its path. *)
Theorem C103_cache base file a r : (∀ b, base = Some b → ¬ b `prefix_of` file) → path_text file = a +:+ "pkg/mod/" +:+ r → (∀ b t, r ≠ b +:+ "pkg/mod/" +:+ t) → stable_filename base file = r.
Proof.
  intros Hb Ht Hr. assert (Hk : ∀ b t, "kg/mod/" +:+ r ≠ b +:+ "pkg/mod/" +:+ t).
  { intros b t E. do 7 (destruct b as [|? b]; [discriminate E|rewrite !sapp_cons in E; injection E as _ E]). by apply (Hr b t). }
  assert (B : behind_last mod_cache_marker (path_text file) = Some r).
  { apply behind_last_spec; [done|]. exists a. split; [done|]. intros a' r' E. rewrite Ht in E. destruct (decide (String.length r ≤ String.length r')) as [|N]; [done|exfalso].
    (* an occurrence further behind lies within what follows the first letter of the marker *)
    assert (L : String.length (a +:+ "pkg/mod/" +:+ r) = String.length (a' +:+ mod_cache_marker +:+ r')) by (by rewrite E). rewrite !sapp_length in L. cbn in L.
    assert (G : ∀ n x y z, y +:+ z = x → String.length y ≤ n → str_drop n x = str_drop (n - String.length y) z).
    { clear. intros n x y. revert n x. induction y as [|c y IH]; intros n x z <- Hn; [cbn; by rewrite Nat.sub_0_r|]. destruct n as [|n]; [cbn in Hn; lia|]. rewrite sapp_cons. cbn. apply IH; [done|]. cbn in Hn. lia. }
    apply (Hk (str_take (String.length a' - S (String.length a)) ("kg/mod/" +:+ r)) r').
    assert (D : str_drop (String.length a') (a +:+ "pkg/mod/" +:+ r) = mod_cache_marker +:+ r') by (rewrite E; apply str_drop_app).
    assert (D2 : str_drop (String.length a' - S (String.length a)) ("kg/mod/" +:+ r) = mod_cache_marker +:+ r').
    { rewrite <- D. symmetry. rewrite (G (String.length a') _ (a +:+ "p") ("kg/mod/" +:+ r)); [|by rewrite sapp_assoc|rewrite sapp_length; cbn; lia]. f_equal. rewrite sapp_length. cbn. lia. }
    change ("pkg/mod/" +:+ r') with (mod_cache_marker +:+ r'). rewrite <- D2. by rewrite str_take_drop. }
  unfold stable_filename. rewrite B. destruct base as [b|]; [|done]. destruct (rel_cases b file) as [(rest & E & _)|(_ & l & E)]; [destruct (Hb b eq_refl); rewrite E; by apply prefix_app_r|].
  unfold rel_text. rewrite E. by rewrite dots_join.
Qed.
Theorem C103_elsewhere base file : (∀ b, base = Some b → ¬ b `prefix_of` file) → (∀ a r, path_text file ≠ a +:+ "pkg/mod/" +:+ r) → stable_filename base file = path_text file.
Proof.
  intros Hb Hn. assert (B : behind_last mod_cache_marker (path_text file) = None). { destruct (behind_last mod_cache_marker (path_text file)) as [r|] eqn:B; [exfalso|done]. apply behind_last_spec in B as (a & Ea & _); [|done]. by apply Hn in Ea. }
  unfold stable_filename. rewrite B. destruct base as [b|]; [|done]. destruct (rel_cases b file) as [(rest & E & _)|(_ & l & E)]; [destruct (Hb b eq_refl); rewrite E; by apply prefix_app_r|].
  unfold rel_text. rewrite E. by rewrite dots_join.
Qed.

(** ** Examples *)
Example C103_texts : format_position (Place "a.go" 12 5) = "a.go:12:5" ∧ format_position (Place "" 0 0) = "-" ∧ closure_name (Some ["home"; "u"; "app"]) ["home"; "u"; "app"; "api"; "h.go"] 4 2 = "FuncLit:api/h.go:4:2".
Proof. by vm_compute. Qed.
Example C103_cached : stable_filename (Some ["home"; "u"; "app"]) ["home"; "u"; "go"; "pkg"; "mod"; "x@v1"; "f.go"] = "x@v1/f.go".
Proof. by vm_compute. Qed.
Example C103_history : (prun (PState new_pool ∅) [PAsk (λ p, Place "a.go" p 1) 3; PText "x"; PAsk (λ p, Place "a.go" p 1) 3; PAsk (λ p, Place "a.go" p 1) 0; PAsk (λ p, Place "a.go" p 1) 4]).2 = [0; 1; 0; -1; 2]%Z.
Proof. by vm_compute. Qed.
(** C103j: two files of other modules under directories that end in pkg and mod get one name, and so do closures at the same place in them. *)
Theorem C103_collision_refuted : ∃ base f g, f ≠ g ∧ (¬ base `prefix_of` f) ∧ (¬ base `prefix_of` g) ∧ ∀ line col, closure_name (Some base) f line col = closure_name (Some base) g line col.
Proof.
  exists ["src"; "app"], ["src"; "billing"; "mypkg"; "mod"; "h.go"], ["src"; "users"; "pkg"; "mod"; "h.go"]. split; [done|]. split; [by intros [k E]|]. split; [by intros [k E]|]. intros line col. unfold closure_name. by assert (stable_filename (Some ["src"; "app"]) ["src"; "billing"; "mypkg"; "mod"; "h.go"] = stable_filename (Some ["src"; "app"]) ["src"; "users"; "pkg"; "mod"; "h.go"]) as -> by (by vm_compute).
Qed.
(** C103k: a file of the module whose path begins with two dots keeps the path of its checkout. *)
Theorem C103_dots_refuted : ∃ base base' rest, stable_filename (Some base) (base ++ rest) ≠ stable_filename (Some base') (base' ++ rest).
Proof. exists ["a"], ["b"], ["..gen"; "h.go"]. by vm_compute. Qed.
Print Assumptions C103_library. Print Assumptions C103_injective. Print Assumptions C103_columnless_refuted. Print Assumptions C103_index. Print Assumptions C103_same_index. Print Assumptions C103_other_set_refuted. Print Assumptions C103_checkout. Print Assumptions C103_distinct. Print Assumptions C103_cache. Print Assumptions C103_elsewhere. Print Assumptions C103_collision_refuted. Print Assumptions C103_dots_refuted.
