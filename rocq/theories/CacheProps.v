(** * Caching is invisible: C14. *)
From stdpp Require Import base list strings gmap relations.
From Verif Require Import CacheModel.

Arguments rx {_} _. Arguments rx_mu {_} _. Arguments mc {_} _. Arguments mc_mu {_} _.
Arguments RStart {_}. Arguments RReading {_}. Arguments RHit {_} _. Arguments RMiss {_}. Arguments RWant {_}. Arguments RLocked {_}.
Arguments RCompile {_}. Arguments RStore {_} _. Arguments RLeave {_} _. Arguments RDone {_} _.
Arguments TRegex {_} _ _. Arguments MStart {_} _ _. Arguments MReading {_} _ _. Arguments MHit {_} _ _ _. Arguments MMiss {_} _ _.
Arguments MRegex {_} _ _ _. Arguments MWant {_} _ _ _. Arguments MLocked {_} _ _ _. Arguments MLeave {_} _ _ _. Arguments MDone {_} _ _ _.

Section cache.
  Context {re : Type} (compile : string → option re) (run : re → string → bool).
  Notation step := (cstep re compile run).
  Notation thread := (thread re).

  (** ** Specification *)

  (** Compiling and matching afresh; an invalid expression matches nothing. *)
  Definition fresh_match (p v : string) : bool := match compile p with Some r => run r v | None => false end.
  (** Reachable: some interleaving leads here from process start. *)
  Definition reachable (c : shared re * list thread) : Prop := ∃ c0, initial re c0 ∧ rtc step c0 c.
  Definition finished (t : thread) : Prop := match t with TRegex _ (RDone _) | MDone _ _ _ => True | _ => False end.
  (** Inside a section that reads or writes one of the two maps. *)
  Definition reading_rx (t : thread) : Prop := match t with TRegex _ c | MRegex _ _ c => match c with RReading | RHit _ | RMiss => True | _ => False end | _ => False end.
  Definition writing_rx (t : thread) : Prop := match t with TRegex _ c | MRegex _ _ c => match c with RLocked | RCompile | RStore _ | RLeave _ => True | _ => False end | _ => False end.
  Definition reading_mc (t : thread) : Prop := match t with MReading _ _ | MHit _ _ _ | MMiss _ _ => True | _ => False end.
  Definition writing_mc (t : thread) : Prop := match t with MLocked _ _ _ | MLeave _ _ _ => True | _ => False end.

  (** ** Invariant *)
  Global Instance reading_rx_dec t : Decision (reading_rx t).
  Proof. destruct t as [? []| | | | |? ? []| | | |]; cbn; apply _. Defined.
  Global Instance writing_rx_dec t : Decision (writing_rx t).
  Proof. destruct t as [? []| | | | |? ? []| | | |]; cbn; apply _. Defined.
  Global Instance reading_mc_dec t : Decision (reading_mc t).
  Proof. destruct t; cbn; apply _. Defined.
  Global Instance writing_mc_dec t : Decision (writing_mc t).
  Proof. destruct t; cbn; apply _. Defined.
  Global Instance finished_dec t : Decision (finished t).
  Proof. destruct t as [? []| | | | |? ? []| | | |]; cbn; apply _. Defined.
  Definition ind (P : thread → Prop) `{∀ t, Decision (P t)} (t : thread) : nat := if decide (P t) then 1 else 0.
  Definition lock_ok (m : rwlock) (r w : nat) : Prop := readers m = r ∧ w = (if writer m then 1 else 0) ∧ (writer m = true → r = 0).
  Definition rpc_ok (p : string) (c : rpc re) : Prop :=
    match c with
    | RHit r | RStore r => compile p = Some r
    | RLeave r | RDone r => r = compile p
    | _ => True
    end.
  Definition thread_ok (t : thread) : Prop :=
    match t with
    | TRegex p c | MRegex p _ c => rpc_ok p c
    | MHit p v b | MWant p v b | MLocked p v b | MLeave p v b | MDone p v b => b = fresh_match p v
    | _ => True
    end.
  Definition good (c : shared re * list thread) : Prop :=
    (∀ p r, rx c.1 !! p = Some r → compile p = Some r) ∧
    (∀ p inner v b, mc c.1 !! p = Some inner → inner !! v = Some b → b = fresh_match p v) ∧
    Forall thread_ok c.2 ∧
    lock_ok (rx_mu c.1) (sum_list_with (ind reading_rx) c.2) (sum_list_with (ind writing_rx) c.2) ∧
    lock_ok (mc_mu c.1) (sum_list_with (ind reading_mc) c.2) (sum_list_with (ind writing_mc) c.2).
  Lemma sum_insert (f : thread → nat) ts i x y : ts !! i = Some x → sum_list_with f (<[i := y]> ts) + f x = sum_list_with f ts + f y.
  Proof.
    revert i. induction ts as [|t ts IH]; intros [|i]; [done|done| |].
    - intros [= ->]. change (<[0 := y]> (x :: ts)) with (y :: ts). cbn [sum_list_with]. lia.
    - intros H. specialize (IH i H). change (<[S i := y]> (t :: ts)) with (t :: <[i := y]> ts). cbn [sum_list_with]. lia.
  Qed.
  Lemma sum_lookup (f : thread → nat) ts i x : ts !! i = Some x → f x ≤ sum_list_with f ts.
  Proof. revert i. induction ts as [|t ts IH]; intros [|i]; cbn; [done|done| |]; [intros [= ->]; lia|]. intros H. specialize (IH i H). lia. Qed.
  Lemma sum_two (f : thread → nat) ts i j x y : i ≠ j → ts !! i = Some x → ts !! j = Some y → f x + f y ≤ sum_list_with f ts.
  Proof.
    revert i j. induction ts as [|t ts IH]; intros [|i] [|j] Hij; cbn; try done.
    - intros [= ->] H. pose proof (sum_lookup f ts j y H). lia.
    - intros H [= ->]. pose proof (sum_lookup f ts i x H). lia.
    - intros H1 H2. specialize (IH i j). feed specialize IH; [congruence|done|done|]. lia.
  Qed.
  Lemma sum_zero (f : thread → nat) ts : Forall (λ t, f t = 0) ts → sum_list_with f ts = 0.
  Proof. induction 1 as [|t ts H _ IH]; cbn; [done|]. by rewrite H, IH. Qed.
  Ltac calc := repeat match goal with
    | |- context [ind ?P ?t] => let v := eval vm_compute in (ind P t) in change (ind P t) with v in *
    | H : context [ind ?P ?t] |- _ => let v := eval vm_compute in (ind P t) in change (ind P t) with v in *
    end.
  Lemma good_initial c : initial re c → good c.
  Proof.
    intros [E H]. destruct c as [s ts]. cbn in *. subst s. split; [|split; [|split; [|split]]].
    - intros p r Hp. cbn in Hp. by rewrite lookup_empty in Hp.
    - intros p inner v b Hp. cbn in Hp. by rewrite lookup_empty in Hp.
    - eapply Forall_impl; [exact H|]. intros [? []| | | | | | | | |]; done.
    - assert (∀ t, fresh_thread re t → ind reading_rx t = 0 ∧ ind writing_rx t = 0) as Hf by (intros [? []| | | | | | | | |]; done).
      rewrite !sum_zero; [done| |]; (eapply Forall_impl; [exact H|]); intros t Ht; by apply Hf.
    - assert (∀ t, fresh_thread re t → ind reading_mc t = 0 ∧ ind writing_mc t = 0) as Hf by (intros [? []| | | | | | | | |]; done).
      rewrite !sum_zero; [done| |]; (eapply Forall_impl; [exact H|]); intros t Ht; by apply Hf.
  Qed.
  Lemma rstep_good p s c s' c' : rstep re compile p s c s' c' → rpc_ok p c → (∀ p r, rx s !! p = Some r → compile p = Some r) →
    rpc_ok p c' ∧ (∀ p r, rx s' !! p = Some r → compile p = Some r) ∧ mc s' = mc s ∧ mc_mu s' = mc_mu s.
  Proof.
    intros H Hc Hs. destruct H; cbn in *; try (split_and!; try done; by apply Hs).
    - split_and!; try done. symmetry. by apply Hs.
    - split_and!; try done. intros q r'. destruct (decide (q = p)) as [->|Hq]; [rewrite lookup_insert; by intros [= <-]|rewrite lookup_insert_ne by done; apply Hs].
  Qed.
  (** The locks follow the threads. *)
  Lemma rstep_lock p s c s' c' (w : rpc re → thread) (R W : nat) : (∀ c, w c = TRegex p c ∨ ∃ v, w c = MRegex p v c) → rstep re compile p s c s' c' →
    lock_ok (rx_mu s) (R + ind reading_rx (w c)) (W + ind writing_rx (w c)) → lock_ok (rx_mu s') (R + ind reading_rx (w c')) (W + ind writing_rx (w c')).
  Proof.
    intros Hw H. assert (∀ c, ind reading_rx (w c) = match c with RReading | RHit _ | RMiss => 1 | _ => 0 end) as Er by (intros c0; destruct (Hw c0) as [->|[v ->]]; by destruct c0).
    assert (∀ c, ind writing_rx (w c) = match c with RLocked | RCompile | RStore _ | RLeave _ => 1 | _ => 0 end) as Ew by (intros c0; destruct (Hw c0) as [->|[v ->]]; by destruct c0).
    rewrite !Er, !Ew. unfold lock_ok. intros (H1 & H2 & H3). destruct H; cbn in *; destruct (rx_mu s) as [n []]; cbn in *; split_and!; try done; try lia; intros; try lia; try (specialize (H3 eq_refl); lia).
  Qed.
  Lemma good_step c c' : good c → step c c' → good c'.
  Proof.
    intros (G1 & G2 & G3 & G4 & G5) H. destruct H as [s ts i t s' t' Hi H]. cbn in *.
    assert (thread_ok t) as Ht by (by rewrite Forall_lookup in G3; apply (G3 i)).
    assert (∀ P `{∀ t, Decision (P t)}, ∃ R, sum_list_with (ind P) ts = R + ind P t ∧ sum_list_with (ind P) (<[i := t']> ts) = R + ind P t') as Hsum.
    { intros P HP. exists (sum_list_with (ind P) ts - ind P t). pose proof (sum_lookup (ind P) ts i t Hi). pose proof (sum_insert (ind P) ts i t t' Hi). lia. }
    destruct (Hsum reading_rx _) as (R1 & E1 & E1'), (Hsum writing_rx _) as (W1 & E2 & E2'), (Hsum reading_mc _) as (R2 & E3 & E3'), (Hsum writing_mc _) as (W2 & E4 & E4').
    unfold good. cbn [fst snd]. rewrite E1, E2, E3, E4 in *. rewrite E1', E2', E3', E4'. clear Hsum E1 E2 E3 E4 E1' E2' E3' E4'.
    assert (∀ P : Prop, (thread_ok t' → P) → thread_ok t' → P ∧ Forall thread_ok (<[i := t']> ts)) as Hins by (intros P HP H'; split; [by apply HP|by apply Forall_insert]).
    destruct H as [p s c s' c' H|s p v Hw|s p v inner b Ho Hv|s p v Ho|s p v inner Ho Hv|s p v b|s p v|s p v c s' c' H|s p v r|s p v b Hw Hr|s p v b|s p v b].
    - destruct (rstep_good p s c s' c' H Ht G1) as (A & B & C & D). rewrite C, D. split; [done|]. split; [done|]. split; [by apply Forall_insert|]. split; [|exact G5].
      apply (rstep_lock p s c s' c' (TRegex p)); [by left|done|exact G4].
    - split; [done|]. split; [done|]. split; [by apply Forall_insert|]. split; [exact G4|]. calc. unfold lock_ok in *. cbn [mc_mu readers writer] in *. destruct G5 as (? & ? & ?). rewrite Hw in *. split_and!; [lia|lia|done].
    - split; [done|]. split; [done|]. split; [apply Forall_insert; [done|]; by apply (G2 p inner)|]. done.
    - split; [done|]. split; [done|]. split; [by apply Forall_insert|]. done.
    - split; [done|]. split; [done|]. split; [by apply Forall_insert|]. done.
    - split; [done|]. split; [done|]. split; [by apply Forall_insert|]. split; [exact G4|]. calc. unfold lock_ok in *. cbn [mc_mu readers writer] in *. destruct G5 as (? & ? & H5). split_and!; [lia|lia|]. intros E. specialize (H5 E). lia.
    - split; [done|]. split; [done|]. split; [by apply Forall_insert|]. split; [exact G4|]. calc. unfold lock_ok in *. cbn [mc_mu readers writer] in *. destruct G5 as (? & ? & H5). split_and!; [lia|lia|]. intros E. specialize (H5 E). lia.
    - destruct (rstep_good p s c s' c' H Ht G1) as (A & B & C & D). rewrite C, D. split; [done|]. split; [done|]. split; [by apply Forall_insert|]. split; [|exact G5].
      apply (rstep_lock p s c s' c' (MRegex p v)); [intros ?; right; by exists v|done|exact G4].
    - split; [done|]. split; [done|]. split; [apply Forall_insert; [done|]; cbn in *; subst r; done|]. done.
    - split; [done|]. split; [done|]. split; [by apply Forall_insert|]. split; [exact G4|]. calc. unfold lock_ok in *. cbn [mc_mu readers writer] in *. destruct G5 as (? & ? & H5). rewrite Hw in *. split_and!; [lia|lia|intros _; lia].
    - split; [done|]. split; [|split; [by apply Forall_insert|done]]. cbn. intros q inner v' b' Hq Hv. destruct (decide (q = p)) as [->|Hne].
      + rewrite lookup_insert in Hq. injection Hq as <-. destruct (decide (v' = v)) as [->|Hne]; [rewrite lookup_insert in Hv; injection Hv as <-; done|]. rewrite lookup_insert_ne in Hv by done. destruct (mc s !! p) as [inner|] eqn:E; cbn in Hv; [by apply (G2 p inner)|by rewrite lookup_empty in Hv].
      + rewrite lookup_insert_ne in Hq by done. by apply (G2 q inner).
    - split; [done|]. split; [done|]. split; [by apply Forall_insert|]. split; [exact G4|]. calc. unfold lock_ok in *. cbn [mc_mu readers writer] in *. destruct G5 as (? & H5 & ?). destruct (writer (mc_mu s)); split_and!; try done; lia.
  Qed.
  Lemma reachable_good c : reachable c → good c.
  Proof. intros (c0 & H0 & H). apply good_initial in H0. induction H as [|x y z Hxy _ IH]; [done|]. apply IH. by apply (good_step x). Qed.

  (** ** The property *)

  (** Whatever the interleaving, an answer is what compiling and matching afresh gives. *)
  Theorem C14_regex_answer s ts i p r : reachable (s, ts) → ts !! i = Some (TRegex p (RDone r)) → r = compile p.
  Proof. intros H Hi. apply reachable_good in H as (_ & _ & H & _). rewrite Forall_lookup in H. exact (H i _ Hi). Qed.
  Theorem C14_match_answer s ts i p v b : reachable (s, ts) → ts !! i = Some (MDone p v b) → b = fresh_match p v.
  Proof. intros H Hi. apply reachable_good in H as (_ & _ & H & _). rewrite Forall_lookup in H. exact (H i _ Hi). Qed.
  Theorem C14_invalid_never_matches s ts i p v b : reachable (s, ts) → compile p = None → ts !! i = Some (MDone p v b) → b = false.
  Proof. intros H Hp Hi. rewrite (C14_match_answer s ts i p v b H Hi). unfold fresh_match. by rewrite Hp. Qed.
  (** While one goroutine may write a map, no other reads or writes it. *)
  Theorem C14_exclusive s ts i j t u : reachable (s, ts) → i ≠ j → ts !! i = Some t → ts !! j = Some u →
    (writing_rx t → ¬ reading_rx u ∧ ¬ writing_rx u) ∧ (writing_mc t → ¬ reading_mc u ∧ ¬ writing_mc u).
  Proof.
    intros H Hij Hi Hj. apply reachable_good in H as (_ & _ & _ & (A1 & A2 & A3) & (B1 & B2 & B3)). cbn in *.
    assert (∀ P `{∀ t, Decision (P t)} t, P t → ind P t = 1) as Hind by (intros P ? x Hx; unfold ind; by rewrite decide_True).
    split; intros Ht; (split; intros Hu).
    - pose proof (sum_lookup (ind writing_rx) ts i t Hi) as S1. pose proof (sum_lookup (ind reading_rx) ts j u Hj) as S2. rewrite Hind in S1, S2 by done. destruct (writer (rx_mu s)); [specialize (A3 eq_refl)|]; lia.
    - pose proof (sum_two (ind writing_rx) ts i j t u Hij Hi Hj) as S1. rewrite !Hind in S1 by done. destruct (writer (rx_mu s)); lia.
    - pose proof (sum_lookup (ind writing_mc) ts i t Hi) as S1. pose proof (sum_lookup (ind reading_mc) ts j u Hj) as S2. rewrite Hind in S1, S2 by done. destruct (writer (mc_mu s)); [specialize (B3 eq_refl)|]; lia.
    - pose proof (sum_two (ind writing_mc) ts i j t u Hij Hi Hj) as S1. rewrite !Hind in S1 by done. destruct (writer (mc_mu s)); lia.
  Qed.
  (** An expression is only compiled and stored while no other goroutine has stored it: at most one compilation of an expression is kept. *)
  Definition compiling (p : string) (t : thread) : Prop := match t with TRegex q c | MRegex q _ c => q = p ∧ match c with RCompile | RStore _ => True | _ => False end | _ => False end.
  Lemma rstep_rx p s c s' c' : rstep re compile p s c s' c' → (rx s' = rx s ∧ (match c' with RCompile | RStore _ => True | _ => False end → (match c with RCompile | RStore _ => True | _ => False end) ∨ rx s !! p = None))
    ∨ (∃ r, c = RStore r ∧ c' = RLeave (Some r) ∧ rx s' = <[p := r]> (rx s)).
  Proof. intros H. destruct H; cbn; try (left; split; [done|]; intros; auto; done). right. by eexists. Qed.
  Theorem C14_compiled_once s ts i t p : reachable (s, ts) → ts !! i = Some t → compiling p t → rx s !! p = None.
  Proof.
    intros (c0 & H0 & H) Hi Hc.
    set (ok := λ c : shared re * list thread, ∀ i t p, c.2 !! i = Some t → compiling p t → rx c.1 !! p = None). enough (ok (s, ts)) as Hok by exact (Hok i t p Hi Hc). clear i t p Hi Hc.
    assert (ok c0) as Hok0. { destruct c0 as [s0 ts0], H0 as [_ Hf]. intros j u q Hj Hc. cbn in Hj. rewrite Forall_lookup in Hf. specialize (Hf j u Hj). destruct u as [? []| | | | | | | | |]; first [done|by destruct Hc]. }
    assert (good c0) as Hgood by (by apply good_initial). assert (reachable c0) as Hr0 by (by exists c0). clear H0. revert Hok0 Hgood Hr0. induction H as [|x y z Hxy _ IH]; [done|]. intros Hx Hgx Hrx.
    assert (reachable y) as Hry. { destruct Hrx as (d0 & Hd0 & Hd). exists d0. split; [done|]. by eapply rtc_r. }
    apply IH; [|by eapply good_step|done]. clear IH. destruct Hxy as [a l j u a' u' Hj Hstep]. intros n w q Hn Hc. cbn [fst snd] in *.
    assert (rx a' = rx a ∨ ∃ q' r, (∃ v, u = TRegex q' (RStore r) ∨ u = MRegex q' v (RStore r)) ∧ ¬ compiling q u' ∧ writing_rx u ∧ rx a' = <[q' := r]> (rx a)) as Hrx'.
    { destruct Hstep as [p0 a c a' c' Hs| | | | | | |a p0 v c a' c' Hs| | | |]; try (by left).
      - apply rstep_rx in Hs as [[? _]|(r & -> & -> & ?)]; [by left|right]. exists p0, r. split; [exists ""; by left|]. split; [by intros [_ ?]|done].
      - apply rstep_rx in Hs as [[? _]|(r & -> & -> & ?)]; [by left|right]. exists p0, r. split; [exists v; by right|]. split; [by intros [_ ?]|done]. }
    assert (compiling q u' → compiling q u ∨ rx a !! q = None) as Hu.
    { intros Hcu. destruct Hstep as [p0 a c a' c' Hs| | | | | | |a p0 v c a' c' Hs| | | |]; try done.
      - destruct Hcu as [-> Hcu]. apply rstep_rx in Hs as [[_ H]|(r & -> & -> & _)]; [destruct (H Hcu); [by left|by right]|done].
      - by destruct Hcu as [_ ?].
      - destruct Hcu as [-> Hcu]. apply rstep_rx in Hs as [[_ H]|(r & -> & -> & _)]; [destruct (H Hcu); [by left|by right]|done].
    }
    destruct (decide (n = j)) as [->|Hnj].
    - rewrite list_lookup_insert in Hn by (by eapply lookup_lt_Some). injection Hn as <-. destruct Hrx' as [->|(q' & r & _ & Hnc & _)]; [|done]. destruct (Hu Hc) as [Hc'|?]; [|done]. by apply (Hx j u q).
    - rewrite list_lookup_insert_ne in Hn by done. destruct Hrx' as [->|(q' & r & _ & _ & Hw & ->)]; [by apply (Hx n w q)|]. exfalso. destruct (C14_exclusive a l j n u w Hrx) as [He _]; [done|done|done|]. destruct (He Hw) as [_ Hnw]. apply Hnw. destruct w as [? []| | | | |? ? []| | | |]; first [done|by destruct Hc].
  Qed.
  (** Nothing stored is ever lost. *)
  Theorem C14_entries_kept c c' : rtc step c c' → (∀ p r, rx c.1 !! p = Some r → is_Some (rx c'.1 !! p)) ∧ (∀ p inner v b, mc c.1 !! p = Some inner → inner !! v = Some b → ∃ inner', mc c'.1 !! p = Some inner' ∧ is_Some (inner' !! v)).
  Proof.
    assert (∀ p s c s' c', rstep re compile p s c s' c' → mc s' = mc s ∧ ∀ q, is_Some (rx s !! q) → is_Some (rx s' !! q)) as Hr.
    { intros p s c0 s' c0' Hs. destruct Hs; cbn; try done. split; [done|]. intros q Hq. destruct (decide (p = q)) as [->|?]; [by rewrite lookup_insert|by rewrite lookup_insert_ne]. }
    assert (∀ c c', step c c' → (∀ q, is_Some (rx c.1 !! q) → is_Some (rx c'.1 !! q)) ∧ (∀ p v, is_Some (mc c.1 !! p ≫= λ inner, inner !! v) → is_Some (mc c'.1 !! p ≫= λ inner, inner !! v))) as H1.
    { intros x y Hxy. destruct Hxy as [s ts i t s' t' _ Hs]. cbn [fst]. destruct Hs as [p s c0 s' c0' Hs| | | | | | |s p v c0 s' c0' Hs| | |s p v b|]; cbn [rx mc]; try done.
      - apply Hr in Hs as [-> ?]. done.
      - apply Hr in Hs as [-> ?]. done.
      - split; [done|]. intros p' v' Hv. destruct (decide (p = p')) as [<-|Hne]; [|by rewrite lookup_insert_ne]. rewrite lookup_insert. cbn. destruct (decide (v = v')) as [<-|Hne]; [by rewrite lookup_insert|]. rewrite lookup_insert_ne by done. destruct (mc s !! p); [done|]. by destruct Hv. }
    intros H. assert ((∀ q, is_Some (rx c.1 !! q) → is_Some (rx c'.1 !! q)) ∧ (∀ p v, is_Some (mc c.1 !! p ≫= λ inner, inner !! v) → is_Some (mc c'.1 !! p ≫= λ inner, inner !! v))) as [A B].
    { induction H as [|x y z Hxy _ [IH1 IH2]]; [done|]. destruct (H1 x y Hxy) as [S1 S2]. split; auto. }
    split; [intros p r Hp; apply A; by exists r|]. intros p inner v b Hp Hv. specialize (B p v). rewrite Hp in B. cbn in B. rewrite Hv in B. destruct B as [b' Hb]; [done|]. apply bind_Some in Hb as (inner' & ? & ?). exists inner'. split; [done|by exists b'].
  Qed.
  (** Some goroutine can always move until all have returned. *)
  Lemma sum_pos (P : thread → Prop) `{∀ t, Decision (P t)} ts : 0 < sum_list_with (ind P) ts → ∃ i t, ts !! i = Some t ∧ P t.
  Proof.
    induction ts as [|t ts IH]; cbn; [lia|]. intros Hs. destruct (decide (P t)) as [Ht|Ht]; [by exists 0, t|].
    assert (ind P t = 0) as E by (unfold ind; by rewrite decide_False). destruct IH as (i & u & Hi & Hu); [lia|]. by exists (S i), u.
  Qed.
  Theorem C14_no_deadlock s ts : reachable (s, ts) → Forall finished ts ∨ ∃ c', step (s, ts) c'.
  Proof.
    intros H. apply reachable_good in H as (_ & _ & _ & (A1 & A2 & A3) & (B1 & B2 & B3)). cbn in *.
    assert (∀ i t, ts !! i = Some t → (∃ s' t', tstep re compile run s t s' t') → ∃ c', step (s, ts) c') as Hgo by (intros i t Hi (s' & t' & Ht); eexists; by apply (c_step re compile run s ts i t s' t')).
    (* a goroutine inside a section of the regex cache can move *)
    assert (∀ p c, (match c with RStart | RWant | RDone _ => False | _ => True end) → ∃ s' c', rstep re compile p s c s' c') as Hin.
    { intros p c Hc. destruct c; try done.
      - destruct (rx s !! p) eqn:E; eauto using rstep. - eauto using rstep. - eauto using rstep.
      - destruct (rx s !! p) eqn:E; eauto using rstep. - destruct (compile p) eqn:E; eauto using rstep. - eauto using rstep. - eauto using rstep. }
    destruct (decide (0 < sum_list_with (ind reading_rx) ts)) as [H1|H1].
    { right. apply sum_pos in H1 as (i & t & Hi & Ht). apply (Hgo i t Hi). destruct t as [p c| | | | |p v c| | | |]; try done; (destruct (Hin p c) as (s' & c' & Hs); [by destruct c|]); eauto using tstep. }
    destruct (decide (0 < sum_list_with (ind writing_rx) ts)) as [H2|H2].
    { right. apply sum_pos in H2 as (i & t & Hi & Ht). apply (Hgo i t Hi). destruct t as [p c| | | | |p v c| | | |]; try done; (destruct (Hin p c) as (s' & c' & Hs); [by destruct c|]); eauto using tstep. }
    destruct (decide (0 < sum_list_with (ind reading_mc) ts)) as [H3|H3].
    { right. apply sum_pos in H3 as (i & t & Hi & Ht). apply (Hgo i t Hi). destruct t as [p c| |p v|p v b|p v|p v c| | | |]; try done; [|eauto using tstep|eauto using tstep].
      destruct (mc s !! p) as [inner|] eqn:E; [|eauto using tstep]. destruct (inner !! v) eqn:E'; eauto using tstep. }
    destruct (decide (0 < sum_list_with (ind writing_mc) ts)) as [H4|H4].
    { right. apply sum_pos in H4 as (i & t & Hi & Ht). apply (Hgo i t Hi). destruct t as [p c| |p v|p v b|p v|p v c| |p v b|p v b|]; try done; eauto using tstep. }
    assert (writer (rx_mu s) = false ∧ readers (rx_mu s) = 0) as [W1 R1] by (destruct (writer (rx_mu s)); [lia|split; [done|lia]]).
    assert (writer (mc_mu s) = false ∧ readers (mc_mu s) = 0) as [W2 R2] by (destruct (writer (mc_mu s)); [lia|split; [done|lia]]).
    assert (∀ p c, (match c with RDone _ => False | _ => True end) → ∃ s' c', rstep re compile p s c s' c') as Hall.
    { intros p c Hc. destruct c; try (by apply Hin); [|]; eauto using rstep. }
    destruct (decide (Forall finished ts)) as [Hf|Hf]; [by left|].
    right. apply not_Forall_Exists in Hf; [|apply _]. apply Exists_exists in Hf as (t & Ht & Hn). apply elem_of_list_lookup in Ht as [i Hi]. apply (Hgo i t Hi).
      assert (¬ finished t) as Hnf by done.
      destruct t as [p c|p v|p v|p v b|p v|p v c|p v b|p v b|p v b|p v b]; cbn in Hnf.
      + destruct (Hall p c) as (s' & c' & Hs); [by destruct c|]. eauto using tstep.
      + eauto using tstep.
      + destruct (mc s !! p) as [inner|] eqn:E; [|eauto using tstep]. destruct (inner !! v) eqn:E'; eauto using tstep.
      + eauto using tstep. + eauto using tstep.
      + destruct c as [| | | | | | | | |r]; try (destruct (Hall p _ I) as (s' & c' & Hs); eauto using tstep; fail); try (eauto using tstep; fail).
        all: match goal with |- ∃ s' t', tstep _ _ _ _ (MRegex _ _ ?c) _ _ => destruct (Hall p c I) as (s' & c' & Hs); eauto using tstep end.
      + eauto using tstep. + eauto using tstep. + eauto using tstep. + done.
  Qed.
  (** Every execution ends: a call takes at most fifteen steps. *)
  Definition rleft (c : rpc re) : nat :=
    match c with RStart => 8 | RReading => 7 | RHit _ => 1 | RMiss => 6 | RWant => 5 | RLocked => 4 | RCompile => 3 | RStore _ => 2 | RLeave _ => 1 | RDone _ => 0 end.
  Definition tleft (t : thread) : nat :=
    match t with
    | TRegex _ c => rleft c
    | MStart _ _ => 15 | MReading _ _ => 14 | MHit _ _ _ => 1 | MMiss _ _ => 13 | MRegex _ _ c => 4 + rleft c | MWant _ _ _ => 3 | MLocked _ _ _ => 2 | MLeave _ _ _ => 1 | MDone _ _ _ => 0
    end.
  Lemma rstep_left p s c s' c' : rstep re compile p s c s' c' → rleft c' < rleft c.
  Proof. destruct 1; cbn; lia. Qed.
  Lemma tstep_left s t s' t' : tstep re compile run s t s' t' → tleft t' < tleft t.
  Proof. destruct 1 as [p s c s' c' H| | | | | | |s p v c s' c' H| | | |]; cbn; try lia; apply rstep_left in H; lia. Qed.
  Theorem C14_terminates n s ts c' : nsteps step n (s, ts) c' → n ≤ 15 * length ts.
  Proof.
    intros H. assert (∀ c : shared re * list thread, sum_list_with tleft c.2 ≤ 15 * length c.2) as Hb.
    { intros [s0 l]. cbn [snd]. clear. induction l as [|t l IH]; cbn; [lia|]. assert (tleft t ≤ 15); [|lia]. destruct t as [? []| | | | |? ? []| | | |]; cbn; lia. }
    assert (∀ c, nsteps step n c c' → n ≤ sum_list_with tleft c.2) as Hn.
    { clear H. induction n as [|n IH]; intros c Hc; [lia|]. inversion Hc as [|? ? c1 ? Hs Hr]; subst. apply IH in Hr. destruct Hs as [s0 l i t s' t' Hi Ht]. cbn in *. apply tstep_left in Ht. pose proof (sum_insert tleft l i t t' Hi). lia. }
    specialize (Hn _ H). specialize (Hb (s, ts)). cbn in *. lia.
  Qed.
End cache.
Print Assumptions C14_regex_answer.
Print Assumptions C14_match_answer.
Print Assumptions C14_invalid_never_matches.
Print Assumptions C14_exclusive.
Print Assumptions C14_compiled_once.
Print Assumptions C14_entries_kept.
Print Assumptions C14_no_deadlock.
Print Assumptions C14_terminates.

(** Two goroutines whose steps alternate: the second one compiles while the first one waits for
    the lock, the first one then finds the stored expression; a third one asks an invalid one. *)
Definition toy_compile (p : string) : option string := if decide (p = "(") then None else Some p.
Definition toy_run (r v : string) : bool := bool_decide (r = v).
Tactic Notation "go" constr(i) tactic(t) := eapply rtc_l; [eapply (c_step _ _ _ _ _ i); [reflexivity|t; vm_compute; reflexivity]|match goal with |- rtc _ ?c _ => let x := eval vm_compute in c in change c with x end].
Tactic Notation "gox" constr(i) tactic(t) := eapply rtc_l; [eapply (c_step _ _ _ _ _ i); [reflexivity|t]|match goal with |- rtc _ ?c _ => let x := eval vm_compute in c in change c with x end].
Example C14_example : ∃ s, reachable toy_compile toy_run (s, [MDone "a" "a" true; TRegex "a" (RDone (Some "a")); TRegex "(" (RDone None)]).
Proof.
  eexists. exists (Shared _ ∅ free_lock ∅ free_lock, [MStart "a" "a"; TRegex "a" RStart; TRegex "(" RStart]). split; [split; [done|repeat constructor]|].
  go 0 apply m_rlock. go 1 (apply t_regex, r_rlock). go 0 apply m_miss_outer. gox 0 apply m_miss_unlock. go 0 (apply m_call, r_rlock).
  go 1 (apply t_regex, r_miss). go 0 (apply m_call, r_miss). gox 1 (apply t_regex, r_miss_unlock). gox 0 (apply m_call, r_miss_unlock).
  eapply rtc_l; [eapply (c_step _ _ _ _ _ 1); [reflexivity|apply t_regex, r_lock; reflexivity]|].
  match goal with |- rtc _ ?c _ => let x := eval vm_compute in c in change c with x end.
  go 1 (apply t_regex, r_again_miss). go 1 (apply t_regex, r_compile). gox 1 (apply t_regex, r_store). gox 1 (apply t_regex, r_unlock).
  eapply rtc_l; [eapply (c_step _ _ _ _ _ 0); [reflexivity|apply m_call, r_lock; reflexivity]|].
  match goal with |- rtc _ ?c _ => let x := eval vm_compute in c in change c with x end.
  go 0 (eapply m_call, r_again_hit). gox 0 (apply m_call, r_unlock). gox 0 apply m_return.
  go 2 (apply t_regex, r_rlock). go 2 (apply t_regex, r_miss). gox 2 (apply t_regex, r_miss_unlock).
  eapply rtc_l; [eapply (c_step _ _ _ _ _ 2); [reflexivity|apply t_regex, r_lock; reflexivity]|].
  match goal with |- rtc _ ?c _ => let x := eval vm_compute in c in change c with x end.
  go 2 (apply t_regex, r_again_miss). go 2 (apply t_regex, r_invalid). gox 2 (apply t_regex, r_unlock).
  eapply rtc_l; [eapply (c_step _ _ _ _ _ 0); [reflexivity|apply m_lock; reflexivity]|].
  match goal with |- rtc _ ?c _ => let x := eval vm_compute in c in change c with x end.
  gox 0 apply m_store. gox 0 apply m_unlock. apply rtc_refl.
Qed.
