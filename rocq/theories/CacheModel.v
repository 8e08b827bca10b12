(** * The regular-expression and match caches (internal/spec/regex_cache.go).

    A small-step model of any number of goroutines calling [cachedRegex] and [cachedMatch]: every
    lock operation, map read and map write is a step of its own, and the steps of different
    goroutines interleave arbitrarily. Compiling and matching are parameters. *)
From stdpp Require Import base list strings gmap.

(** sync.RWMutex: the number of readers inside and whether a writer is inside. Fairness is not modelled. *)
Record rwlock := RW { readers : nat; writer : bool }.
Definition free_lock : rwlock := RW 0 false.

Section cache.
  Context (re : Type) (compile : string → option re) (run : re → string → bool).

  (** The package variables (regex_cache.go 30-33, 76-82). *)
  Record shared := Shared { rx : gmap string re; rx_mu : rwlock; mc : gmap string (gmap string bool); mc_mu : rwlock }.

  (** Where a call of [cachedRegex] (regex_cache.go 37-60) stands. *)
  Inductive rpc :=
  | RStart                    (* before line 38 *)
  | RReading                  (* read lock held, before line 39 *)
  | RHit (r : re)             (* read lock held, entry found, before line 40 *)
  | RMiss                     (* read lock held, no entry, before line 43 *)
  | RWant                     (* before line 45 *)
  | RLocked                   (* write lock held, before line 50 *)
  | RCompile                  (* write lock held, before line 54 *)
  | RStore (r : re)           (* write lock held, before line 58 *)
  | RLeave (r : option re)    (* write lock held, before the deferred unlock of line 46 *)
  | RDone (r : option re).    (* returned *)
  Inductive rstep (p : string) : shared → rpc → shared → rpc → Prop :=
  | r_rlock s : writer (rx_mu s) = false → rstep p s RStart (Shared (rx s) (RW (S (readers (rx_mu s))) false) (mc s) (mc_mu s)) RReading
  | r_hit s r : rx s !! p = Some r → rstep p s RReading s (RHit r)
  | r_miss s : rx s !! p = None → rstep p s RReading s RMiss
  | r_hit_unlock s r : rstep p s (RHit r) (Shared (rx s) (RW (pred (readers (rx_mu s))) (writer (rx_mu s))) (mc s) (mc_mu s)) (RDone (Some r))
  | r_miss_unlock s : rstep p s RMiss (Shared (rx s) (RW (pred (readers (rx_mu s))) (writer (rx_mu s))) (mc s) (mc_mu s)) RWant
  | r_lock s : writer (rx_mu s) = false → readers (rx_mu s) = 0 → rstep p s RWant (Shared (rx s) (RW 0 true) (mc s) (mc_mu s)) RLocked
  | r_again_hit s r : rx s !! p = Some r → rstep p s RLocked s (RLeave (Some r))
  | r_again_miss s : rx s !! p = None → rstep p s RLocked s RCompile
  | r_compile s r : compile p = Some r → rstep p s RCompile s (RStore r)
  | r_invalid s : compile p = None → rstep p s RCompile s (RLeave None)
  | r_store s r : rstep p s (RStore r) (Shared (<[p := r]> (rx s)) (rx_mu s) (mc s) (mc_mu s)) (RLeave (Some r))
  | r_unlock s r : rstep p s (RLeave r) (Shared (rx s) (RW (readers (rx_mu s)) false) (mc s) (mc_mu s)) (RDone r).

  (** A goroutine: a call of [cachedRegex], or one of [cachedMatch] (regex_cache.go 89-111). *)
  Inductive thread :=
  | TRegex (p : string) (c : rpc)
  | MStart (p v : string)                (* before line 90 *)
  | MReading (p v : string)              (* read lock held, before line 91 *)
  | MHit (p v : string) (b : bool)       (* read lock held, entry found, before line 93 *)
  | MMiss (p v : string)                 (* read lock held, no entry, before line 97 *)
  | MRegex (p v : string) (c : rpc)      (* in the call of line 99 *)
  | MWant (p v : string) (b : bool)      (* before line 102 *)
  | MLocked (p v : string) (b : bool)    (* write lock held, before line 103 *)
  | MLeave (p v : string) (b : bool)     (* write lock held, before line 109 *)
  | MDone (p v : string) (b : bool).     (* returned *)
  Definition result_of (r : option re) (v : string) : bool := match r with Some r => run r v | None => false end.
  Inductive tstep : shared → thread → shared → thread → Prop :=
  | t_regex p s c s' c' : rstep p s c s' c' → tstep s (TRegex p c) s' (TRegex p c')
  | m_rlock s p v : writer (mc_mu s) = false → tstep s (MStart p v) (Shared (rx s) (rx_mu s) (mc s) (RW (S (readers (mc_mu s))) false)) (MReading p v)
  | m_hit s p v inner b : mc s !! p = Some inner → inner !! v = Some b → tstep s (MReading p v) s (MHit p v b)
  | m_miss_outer s p v : mc s !! p = None → tstep s (MReading p v) s (MMiss p v)
  | m_miss_inner s p v inner : mc s !! p = Some inner → inner !! v = None → tstep s (MReading p v) s (MMiss p v)
  | m_hit_unlock s p v b : tstep s (MHit p v b) (Shared (rx s) (rx_mu s) (mc s) (RW (pred (readers (mc_mu s))) (writer (mc_mu s)))) (MDone p v b)
  | m_miss_unlock s p v : tstep s (MMiss p v) (Shared (rx s) (rx_mu s) (mc s) (RW (pred (readers (mc_mu s))) (writer (mc_mu s)))) (MRegex p v RStart)
  | m_call s p v c s' c' : rstep p s c s' c' → tstep s (MRegex p v c) s' (MRegex p v c')
  | m_return s p v r : tstep s (MRegex p v (RDone r)) s (MWant p v (result_of r v))
  | m_lock s p v b : writer (mc_mu s) = false → readers (mc_mu s) = 0 → tstep s (MWant p v b) (Shared (rx s) (rx_mu s) (mc s) (RW 0 true)) (MLocked p v b)
  | m_store s p v b : tstep s (MLocked p v b) (Shared (rx s) (rx_mu s) (<[p := <[v := b]> (default ∅ (mc s !! p))]> (mc s)) (mc_mu s)) (MLeave p v b)
  | m_unlock s p v b : tstep s (MLeave p v b) (Shared (rx s) (rx_mu s) (mc s) (RW (readers (mc_mu s)) false)) (MDone p v b).

  (** The whole program: shared variables and all goroutines; any of them moves. *)
  Inductive cstep : shared * list thread → shared * list thread → Prop :=
  | c_step s ts i t s' t' : ts !! i = Some t → tstep s t s' t' → cstep (s, ts) (s', <[i := t']> ts).
  (** Process start: both caches empty, every goroutine at the beginning of some call. *)
  Definition fresh_thread (t : thread) : Prop := match t with TRegex _ RStart | MStart _ _ => True | _ => False end.
  Definition initial (c : shared * list thread) : Prop := c.1 = Shared ∅ free_lock ∅ free_lock ∧ Forall fresh_thread c.2.
End cache.
