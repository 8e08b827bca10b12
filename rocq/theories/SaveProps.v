(** * Stopping in the middle of a save: C36. *)
From Coq Require Import Ascii.
From stdpp Require Import base list strings gmap.
From Verif Require Import StrLib PairModel PairProofs SaveModel.

(** ** Specification *)
(** Reading back what was written. *)
Definition faithful {P K C} (c : codec P K C) : Prop :=
  (∀ x, dec_pool c (enc_pool c x) = Some x) ∧ (∀ x, dec_packages c (enc_packages c x) = Some x) ∧ (∀ x, dec_calls c (enc_calls c x) = Some x).
(** The pieces add up to the encoding. *)
Definition pieces_of {P K C} (c : codec P K C) (m : metadata P K C) (pc : pieces) : Prop :=
  foldr String.append "" (pc_pool pc) = enc_pool c (md_pool m) ∧
  foldr String.append "" (pc_packages pc) = enc_packages c (md_packages m) ∧
  foldr String.append "" (pc_calls pc) = enc_calls c (md_calls m).
Definition starts (a s : string) : Prop := ∃ t, s = a +:+ t.
(** What a stop can leave of one file: what was there, nothing, or the beginning of the new text. *)
Inductive file_left (old : option string) (new : string) : option string → Prop :=
| left_old : file_left old new old
| left_nothing : file_left old new None
| left_beginning s : starts s new → file_left old new (Some s).

Section save.
  Context {P K C : Type}.
  Implicit Types (c : codec P K C) (m : metadata P K C).

  Lemma foldr_app_assoc l s : foldr String.append s l = foldr String.append "" l +:+ s.
  Proof. induction l as [|x l IH]; cbn [foldr]; [done|]. by rewrite IH, sapp_assoc. Qed.
  Lemma names_distinct b : pool_file b ≠ packages_file b ∧ pool_file b ≠ calls_file b ∧ packages_file b ≠ calls_file b.
  Proof. unfold pool_file, packages_file, calls_file. split_and!; intros H; apply sapp_inj_l in H; done. Qed.

  (** One file. *)
  Lemma appends_effect f chunks : ∀ (d : fs) s, d !! f = Some s → ∀ n,
    foldl do_act d (take n (Append f <$> chunks)) !! f = Some (s +:+ foldr String.append "" (take n chunks)) ∧
    ∀ g, g ≠ f → foldl do_act d (take n (Append f <$> chunks)) !! g = d !! g.
  Proof.
    induction chunks as [|x chunks IH]; intros d s Hd n.
    - rewrite fmap_nil, !take_nil. cbn [foldl foldr]. split; [by rewrite Hd, sapp_nil|done].
    - rewrite fmap_cons. destruct n as [|n]; [rewrite !take_0; cbn [foldl foldr]; split; [by rewrite Hd, sapp_nil|done]|]. rewrite !firstn_cons. cbn [foldl foldr].
      destruct (IH (do_act d (Append f x)) (s +:+ x)) with (n := n) as [H1 H2].
      { cbn [do_act]. rewrite lookup_insert, Hd. done. }
      split.
      + rewrite H1. by rewrite sapp_assoc.
      + intros g Hg. rewrite H2 by done. cbn [do_act]. by rewrite lookup_insert_ne.
  Qed.
  Lemma write_other f chunks (d : fs) n g : g ≠ f → foldl do_act d (take n (write_yaml f chunks)) !! g = d !! g.
  Proof.
    intros Hg. unfold write_yaml. destruct n as [|[|n]]; cbn [take foldl do_act]; [done|by rewrite lookup_delete_ne|].
    destruct (appends_effect f chunks (<[f := ""]> (delete f d)) "" ltac:(apply lookup_insert) n) as [_ H].
    rewrite H by done. rewrite lookup_insert_ne, lookup_delete_ne by done. done.
  Qed.
  Lemma take_starts l n : starts (foldr String.append "" (take n l)) (foldr String.append "" l).
  Proof.
    exists (foldr String.append "" (drop n l)). rewrite <-(take_drop n l) at 1. rewrite foldr_app. apply foldr_app_assoc.
  Qed.
  Lemma write_left f chunks (d : fs) n : file_left (d !! f) (foldr String.append "" chunks) (foldl do_act d (take n (write_yaml f chunks)) !! f).
  Proof.
    unfold write_yaml. destruct n as [|[|n]]; cbn [take foldl do_act]; [apply left_old|rewrite lookup_delete; apply left_nothing|].
    destruct (appends_effect f chunks (<[f := ""]> (delete f d)) "" ltac:(apply lookup_insert) n) as [H _].
    rewrite H. apply left_beginning. apply take_starts.
  Qed.
  Lemma write_done f chunks (d : fs) : foldl do_act d (write_yaml f chunks) !! f = Some (foldr String.append "" chunks).
  Proof.
    unfold write_yaml. cbn [foldl do_act].
    destruct (appends_effect f chunks (<[f := ""]> (delete f d)) "" ltac:(apply lookup_insert) (length (Append f <$> chunks))) as [H _].
    rewrite firstn_all in H. rewrite H. rewrite fmap_length, firstn_all. done.
  Qed.
  Lemma write_done_other f chunks (d : fs) g : g ≠ f → foldl do_act d (write_yaml f chunks) !! g = d !! g.
  Proof. intros H. pose proof (write_other f chunks d (length (write_yaml f chunks)) g H) as G. by rewrite firstn_all in G. Qed.

  (** ** Theorems *)
  (** What a load sees after a complete save. *)
  Theorem C36_complete_save c m pc name (d : fs) : faithful c → pieces_of c m pc → load c name (foldl do_act d (save name pc)) = Some m.
  Proof.
    intros (F1 & F2 & F3) (E1 & E2 & E3). unfold load, save. set (b := base_path name). destruct (names_distinct b) as (N1 & N2 & N3).
    rewrite !foldl_app. rewrite (write_done (calls_file b)), !(write_done_other (calls_file b)) by done.
    rewrite (write_done (packages_file b)), !(write_done_other (packages_file b)) by done. rewrite (write_done (pool_file b)).
    rewrite E1, E2, E3. cbn. rewrite F1. cbn. rewrite F2. cbn. rewrite F3. cbn. by destruct m.
  Qed.
  (** What any stop leaves: the files in the order they are written, those before some point new,
      those after it untouched, the one at that point old, missing or cut short. *)
  Theorem C36_what_a_stop_leaves c m pc name (d : fs) n : pieces_of c m pc →
    let b := base_path name in let d' := stopped d (save name pc) n in
    (∀ g, g ≠ pool_file b → g ≠ packages_file b → g ≠ calls_file b → d' !! g = d !! g) ∧
    ((file_left (d !! pool_file b) (enc_pool c (md_pool m)) (d' !! pool_file b) ∧
      d' !! packages_file b = d !! packages_file b ∧ d' !! calls_file b = d !! calls_file b) ∨
     (d' !! pool_file b = Some (enc_pool c (md_pool m)) ∧
      file_left (d !! packages_file b) (enc_packages c (md_packages m)) (d' !! packages_file b) ∧ d' !! calls_file b = d !! calls_file b) ∨
     (d' !! pool_file b = Some (enc_pool c (md_pool m)) ∧ d' !! packages_file b = Some (enc_packages c (md_packages m)) ∧
      file_left (d !! calls_file b) (enc_calls c (md_calls m)) (d' !! calls_file b))).
  Proof.
    intros (E1 & E2 & E3). cbn zeta. set (b := base_path name). destruct (names_distinct b) as (N1 & N2 & N3).
    unfold stopped, save. change (base_path name) with b. rewrite !firstn_app, !foldl_app.
    set (w1 := write_yaml (pool_file b) (pc_pool pc)). set (w2 := write_yaml (packages_file b) (pc_packages pc)). set (w3 := write_yaml (calls_file b) (pc_calls pc)).
    set (n2 := n - length w1). set (n3 := n2 - length w2).
    split.
    { intros g H1 H2 H3. unfold w1, w2, w3. by rewrite !write_other by done. }
    rewrite !(write_other (calls_file b) (pc_calls pc)) by done. fold w3.
    rewrite !(write_other (packages_file b) (pc_packages pc)) by done. fold w2.
    destruct (decide (n ≤ length w1)) as [Hn|Hn]; [left|right].
    { assert (n2 = 0) as -> by lia. assert (n3 = 0) as -> by lia. rewrite ?take_0. cbn [foldl].
      split; [rewrite <-E1; apply write_left|]. split; by apply write_other. }
    rewrite (take_ge w1) by lia. unfold w1. rewrite write_done, E1. fold w1.
    destruct (decide (n2 ≤ length w2)) as [Hn2|Hn2]; [left|right].
    { assert (n3 = 0) as -> by lia. rewrite ?take_0. cbn [foldl]. split; [done|]. split.
      - rewrite <-E2. rewrite <-(write_done_other (pool_file b) (pc_pool pc) d (packages_file b)) by done. apply write_left.
      - unfold w2. rewrite write_other by done. unfold w1. by apply write_done_other. }
    rewrite (take_ge w2) by lia. split; [done|]. split; [unfold w2; by rewrite write_done, E2|].
    rewrite <-E3. assert (d !! calls_file b = foldl do_act (foldl do_act d w1) w2 !! calls_file b) as ->.
    { unfold w2, w1. rewrite write_done_other by done. by rewrite write_done_other. }
    apply write_left.
  Qed.
  (** If no beginning of a text could be read, a load after a stop would fail or see, in the order
      of the files, new parts followed by old ones. *)
  Definition no_beginning_loads c : Prop :=
    (∀ x s, starts s (enc_pool c x) → s ≠ enc_pool c x → dec_pool c s = None) ∧
    (∀ x s, starts s (enc_packages c x) → s ≠ enc_packages c x → dec_packages c s = None) ∧
    (∀ x s, starts s (enc_calls c x) → s ≠ enc_calls c x → dec_calls c s = None).
  Lemma left_loads {X} (enc : X → string) (dec : string → option X) (x y z : X) o :
    dec (enc x) = Some x → dec (enc y) = Some y → (∀ s, starts s (enc y) → s ≠ enc y → dec s = None) →
    file_left (Some (enc x)) (enc y) o → o ≫= dec = Some z → z = x ∨ z = y.
  Proof.
    intros Hx Hy Hn [| |s Hs]; cbn; intros E.
    - left. congruence.
    - done.
    - destruct (decide (s = enc y)) as [->|Hne]; [right; congruence|]. rewrite Hn in E by done. done.
  Qed.
  Theorem C36_mixtures_partial c m m' r pc name (d : fs) n : faithful c → no_beginning_loads c → pieces_of c m' pc →
    d !! pool_file (base_path name) = Some (enc_pool c (md_pool m)) →
    d !! packages_file (base_path name) = Some (enc_packages c (md_packages m)) →
    d !! calls_file (base_path name) = Some (enc_calls c (md_calls m)) →
    load c name (stopped d (save name pc) n) = Some r →
    r = m ∨ r = Metadata (md_pool m') (md_packages m) (md_calls m) ∨ r = Metadata (md_pool m') (md_packages m') (md_calls m) ∨ r = m'.
  Proof.
    intros (F1 & F2 & F3) (B1 & B2 & B3) Hpc O1 O2 O3 Hl.
    destruct (C36_what_a_stop_leaves c m' pc name d n Hpc) as [_ H]. unfold load in Hl.
    apply bind_Some in Hl as (p & Hp & Hl). apply bind_Some in Hl as (k & Hk & Hl). apply bind_Some in Hl as (g & Hg & [= <-]).
    destruct H as [(H1 & H2 & H3)|[(H1 & H2 & H3)|(H1 & H2 & H3)]].
    - rewrite O1 in H1. rewrite H2, O2 in Hk. rewrite H3, O3 in Hg. cbn in Hk, Hg. rewrite F2 in Hk. rewrite F3 in Hg. injection Hk as <-. injection Hg as <-.
      destruct (left_loads (enc_pool c) (dec_pool c) (md_pool m) (md_pool m') p _ (F1 _) (F1 _) (B1 _) H1 Hp) as [->| ->]; [left; by destruct m|right; by left].
    - rewrite O2 in H2. rewrite H1 in Hp. rewrite H3, O3 in Hg. cbn in Hp, Hg. rewrite F1 in Hp. rewrite F3 in Hg. injection Hp as <-. injection Hg as <-.
      destruct (left_loads (enc_packages c) (dec_packages c) (md_packages m) (md_packages m') k _ (F2 _) (F2 _) (B2 _) H2 Hk) as [->| ->]; [right; by left|right; right; by left].
    - rewrite O3 in H3. rewrite H1 in Hp. rewrite H2 in Hk. cbn in Hp, Hk. rewrite F1 in Hp. rewrite F2 in Hk. injection Hp as <-. injection Hk as <-.
      destruct (left_loads (enc_calls c) (dec_calls c) (md_calls m) (md_calls m') g _ (F3 _) (F3 _) (B3 _) H3 Hg) as [->| ->]; [right; right; by left|]. right; right; right. by destruct m'.
  Qed.
  (** Whatever the codec and whatever the two metadata, if the first part differs and so does one of
      the others, some stop makes a later load succeed with a mixture. *)
  Theorem C36_mixture_refuted c m m' pc name (d : fs) : faithful c → pieces_of c m' pc →
    d !! pool_file (base_path name) = Some (enc_pool c (md_pool m)) →
    d !! packages_file (base_path name) = Some (enc_packages c (md_packages m)) →
    d !! calls_file (base_path name) = Some (enc_calls c (md_calls m)) →
    md_pool m ≠ md_pool m' → md_packages m ≠ md_packages m' ∨ md_calls m ≠ md_calls m' →
    ∃ n r, load c name (stopped d (save name pc) n) = Some r ∧ r ≠ m ∧ r ≠ m'.
  Proof.
    intros (F1 & F2 & F3) (E1 & E2 & E3) O1 O2 O3 Hp Hd. set (b := base_path name) in *. destruct (names_distinct b) as (N1 & N2 & N3).
    exists (length (write_yaml (pool_file b) (pc_pool pc))), (Metadata (md_pool m') (md_packages m) (md_calls m)). split_and!.
    - unfold load, stopped, save. change (base_path name) with b. rewrite firstn_app. rewrite firstn_all, Nat.sub_diag. rewrite take_0, app_nil_r.
      rewrite write_done, E1. rewrite !write_done_other by done. rewrite O2, O3. cbn. rewrite F1. cbn. rewrite F2. cbn. by rewrite F3.
    - intros E. apply Hp. by rewrite <-E.
    - intros E. destruct Hd as [Hd|Hd]; apply Hd; by rewrite <-E.
  Qed.
  (** YAML reads an empty file as the empty value: a stop just after a file was opened is read as
      if that part were empty. *)
  Theorem C36_empty_part_refuted c m m' pc name (d : fs) (nothing : P) : faithful c → pieces_of c m' pc →
    dec_pool c "" = Some nothing →
    d !! pool_file (base_path name) = Some (enc_pool c (md_pool m)) →
    d !! packages_file (base_path name) = Some (enc_packages c (md_packages m)) →
    d !! calls_file (base_path name) = Some (enc_calls c (md_calls m)) →
    ∃ n, load c name (stopped d (save name pc) n) = Some (Metadata nothing (md_packages m) (md_calls m)).
  Proof.
    intros (F1 & F2 & F3) (E1 & E2 & E3) Hn O1 O2 O3. set (b := base_path name) in *. destruct (names_distinct b) as (N1 & N2 & N3).
    exists 2. unfold load, stopped, save. change (base_path name) with b. cbn [take app write_yaml foldl do_act].
    rewrite ?take_0. cbn [foldl do_act].
    rewrite lookup_insert. rewrite !lookup_insert_ne, !lookup_delete_ne by done. rewrite O2, O3. cbn. rewrite Hn. cbn. rewrite F2. cbn. by rewrite F3.
  Qed.

  Lemma suffix_eq a b s t : String.length s = String.length t → a +:+ s = b +:+ t → a = b ∧ s = t.
  Proof.
    intros Hl H. apply sapp_inj_len; [|done]. pose proof (f_equal String.length H) as E. rewrite !sapp_length in E. lia.
  Qed.
  Lemma names_apart b b' : b ≠ b' → ∀ f, f = pool_file b ∨ f = packages_file b ∨ f = calls_file b → f ≠ pool_file b' ∧ f ≠ packages_file b' ∧ f ≠ calls_file b'.
  Proof.
    assert (E1 : ∀ b, pool_file b = (b +:+ "-string-poo") +:+ "l.yaml") by (intros; unfold pool_file; by rewrite sapp_assoc).
    assert (E2 : ∀ b, packages_file b = (b +:+ "-package") +:+ "s.yaml") by (intros; unfold packages_file; by rewrite sapp_assoc).
    assert (E3 : ∀ b, calls_file b = (b +:+ "-call-grap") +:+ "h.yaml") by (intros; unfold calls_file; by rewrite sapp_assoc).
    intros Hb f Hf. rewrite E1, E2, E3. rewrite !E1, !E2, !E3 in Hf.
    destruct Hf as [->|[->| ->]]; split_and!; intros H; apply suffix_eq in H as [H H']; try done; apply Hb; by eapply sapp_inj_r.
  Qed.
  (** Saves under different base paths never touch each other's files. *)
  Theorem C36_different_bases c m m' pc name name' (d : fs) n : base_path name ≠ base_path name' → faithful c → pieces_of c m' pc →
    d !! pool_file (base_path name) = Some (enc_pool c (md_pool m)) →
    d !! packages_file (base_path name) = Some (enc_packages c (md_packages m)) →
    d !! calls_file (base_path name) = Some (enc_calls c (md_calls m)) →
    load c name (stopped d (save name' pc) n) = Some m.
  Proof.
    intros Hb (F1 & F2 & F3) Hpc O1 O2 O3. destruct (C36_what_a_stop_leaves c m' pc name' d n Hpc) as [H _].
    unfold load. 
    destruct (names_apart _ _ Hb _ (or_introl eq_refl)) as (G1 & G2 & G3). rewrite (H _ G1 G2 G3).
    destruct (names_apart _ _ Hb _ (or_intror (or_introl eq_refl))) as (G4 & G5 & G6). rewrite (H _ G4 G5 G6).
    destruct (names_apart _ _ Hb _ (or_intror (or_intror eq_refl))) as (G7 & G8 & G9). rewrite (H _ G7 G8 G9).
    rewrite O1, O2, O3. cbn. rewrite F1. cbn. rewrite F2. cbn. rewrite F3. cbn. by destruct m.
  Qed.
End save.
(** The name without its extension. *)
Theorem C36_base_path dir name ext : contains_byte "." ext = false → contains_byte "/" ext = false →
  base_path (dir +:+ "/" +:+ name +:+ "." +:+ ext) = dir +:+ "/" +:+ name.
Proof.
  intros H1 H2. unfold base_path.
  assert (dir +:+ "/" +:+ name +:+ "." +:+ ext = (dir +:+ "/" +:+ name) +:+ String "." ext) as -> by by rewrite !sapp_assoc.
  rewrite split_last_app by done. by rewrite H2.
Qed.
Print Assumptions C36_complete_save.
Print Assumptions C36_what_a_stop_leaves.
Print Assumptions C36_mixtures_partial.
Print Assumptions C36_mixture_refuted.
Print Assumptions C36_empty_part_refuted.
Print Assumptions C36_different_bases.
Print Assumptions C36_base_path.

(** ** Codecs meeting the hypotheses *)
Fixpoint marks (e : string) (n : nat) : string := match n with 0 => e | S n => String "x" (marks e n) end.
(** Like YAML, every beginning can be read. *)
Fixpoint count_marks (s : string) : option nat := match s with "" => Some 0 | String c s => if bool_decide (c = "x"%char) then S <$> count_marks s else None end.
Definition open_codec : codec nat nat nat := Codec (marks "") count_marks (marks "") count_marks (marks "") count_marks.
(** With an end marker, none can. *)
Fixpoint count_ended (s : string) : option nat :=
  match s with
  | "" => None
  | String c s => if bool_decide (c = "x"%char) then S <$> count_ended s else if bool_decide (c = "."%char ∧ s = "") then Some 0 else None
  end.
Definition ended_codec : codec nat nat nat := Codec (marks ".") count_ended (marks ".") count_ended (marks ".") count_ended.
Lemma open_faithful : faithful open_codec.
Proof. assert (H : ∀ n, count_marks (marks "" n) = Some n) by (induction n as [|n IH]; cbn; [done|by rewrite IH]). by split_and!. Qed.
Lemma ended_faithful : faithful ended_codec ∧ no_beginning_loads ended_codec.
Proof.
  assert (H : ∀ n, count_ended (marks "." n) = Some n) by (induction n as [|n IH]; [by vm_compute|cbn; by rewrite IH]).
  assert (B : ∀ n s, starts s (marks "." n) → s ≠ marks "." n → count_ended s = None).
  { induction n as [|n IH]; intros s [t E] Hne.
    - destruct s as [|x s]; [done|]. rewrite sapp_cons in E. injection E as <- E. destruct s; [done|]. by rewrite sapp_cons in E.
    - destruct s as [|x s]; [done|]. cbn [marks] in E, Hne. rewrite sapp_cons in E. injection E as <- E. cbn. rewrite (IH s); [done|by exists t|]. intros ->. done. }
  split; by split_and!.
Qed.
Definition saved : fs := {[ "out/m-string-pool.yaml" := "xx"; "out/m-packages.yaml" := "xxx"; "out/m-call-graph.yaml" := "x" ]}.
Definition new_pieces : pieces := Pieces ["x"; "xx"; "x"] ["x"] [].
Example C36_example : pieces_of open_codec (Metadata 4 1 0) new_pieces ∧ load open_codec "out/m.yaml" saved = Some (Metadata 2 3 1) ∧
  ((λ n, load open_codec "out/m.yaml" (stopped saved (save "out/m.yaml" new_pieces) n)) <$> seq 0 11) =
  [Some (Metadata 2 3 1); None; Some (Metadata 0 3 1); Some (Metadata 1 3 1); Some (Metadata 3 3 1); Some (Metadata 4 3 1);
   None; Some (Metadata 4 0 1); Some (Metadata 4 1 1); None; Some (Metadata 4 1 0)].
Proof. split; [done|by vm_compute]. Qed.
Example C36_ended_example : let d := {[ "m-string-pool.yaml" := "xx."; "m-packages.yaml" := "x."; "m-call-graph.yaml" := "." ]} in
  pieces_of ended_codec (Metadata 1 0 2) (Pieces ["x"; "."] ["."] ["xx."]) ∧
  ((λ n, load ended_codec "m" (stopped d (save "m" (Pieces ["x"; "."] ["."] ["xx."])) n)) <$> seq 0 11) =
  [Some (Metadata 2 1 0); None; None; None; Some (Metadata 1 1 0); None; None; Some (Metadata 1 0 0); None; None; Some (Metadata 1 0 2)].
Proof. split; [done|by vm_compute]. Qed.
Example C36_base_example : base_path "out.d/m.yaml" = "out.d/m" ∧ base_path "out.d/m" = "out.d/m" ∧ base_path "m.yaml" ≠ base_path "n.yaml".
Proof. by vm_compute. Qed.
