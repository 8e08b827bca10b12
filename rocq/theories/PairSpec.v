(** * Specification of response pairing. *)
From stdpp Require Import base numbers list strings gmap relations.
From Verif Require Import RouteModel PairModel.

(** A write of a status code that was read off the source, without a body. *)
Definition http_status (z : Z) : Prop := (100 ≤ z < 600)%Z.
Definition status_write (f : frag) : Prop := http_status (fr_status f) ∧ fr_body f = "".
(** A write of a status code that could not be determined. *)
Definition unreadable_status (f : frag) : Prop := ¬ http_status (fr_status f) ∧ fr_unres f = true.
(** A body whose own call does not say the status. *)
Definition open_body (f : frag) : Prop := ¬ http_status (fr_status f) ∧ fr_unres f = false ∧ fr_body f ≠ "".

(** After the calls [before], body [f] is preceded on its own call chain by the
    status write number [j], with no other status write or open body of that chain
    in between. *)
Definition claims (before : list frag) (f : frag) (j : nat) (g : frag) : Prop :=
  before !! j = Some g ∧ status_write g ∧ fr_chain g = fr_chain f ∧
  ∀ k h, j < k → before !! k = Some h → fr_chain h = fr_chain f → ¬ status_write h ∧ ¬ open_body h.

Definition after_unreadable (before : list frag) (f : frag) : Prop :=
  ∃ h, h ∈ before ∧ fr_chain h = fr_chain f ∧ unreadable_status h.

(** What becomes of [f]: documented at once ([inl]), left for later ([inr]) or
    nothing. *)
Definition outcome (before : list frag) (f : frag) (o : option (frag + frag)) : Prop :=
  (http_status (fr_status f) ∧ o = Some (inl f)) ∨
  (open_body f ∧ ∃ f',
     ((after_unreadable before f ∧ f' = no_implicit f) ∨ (¬ after_unreadable before f ∧ f' = f)) ∧
     ((∃ j g, claims before f j g ∧ o = Some (inl (with_status (fr_status g) f'))) ∨
      ((∀ j g, ¬ claims before f j g) ∧ o = Some (inr f')))) ∨
  (¬ http_status (fr_status f) ∧ ¬ open_body f ∧ o = None).

Definition left_of {A B} (o : option (A + B)) : option A := match o with Some (inl x) => Some x | _ => None end.
Definition right_of {A B} (o : option (A + B)) : option B := match o with Some (inr x) => Some x | _ => None end.

(** No unpaired body was written closer to the handler. *)
Definition shallowest (depths : gmap string nat) (l : list frag) (f : frag) : Prop :=
  ∀ g, g ∈ l → depth_of depths f ≤ depth_of depths g.
Global Instance shallowest_dec depths l f : Decision (shallowest depths l f).
Proof.
  unfold shallowest. destruct (decide (Forall (λ g, depth_of depths f ≤ depth_of depths g) l)) as [H|H];
    [left|right]; rewrite Forall_forall in H; done.
Defined.

(** [y] is [n] calls away from [x]. *)
Definition calls (edges : list (string * string)) (x y : string) : Prop := (x, y) ∈ edges.
Definition distance (edges : list (string * string)) (x y : string) (n : nat) : Prop :=
  nsteps (calls edges) n x y ∧ ∀ m, nsteps (calls edges) m x y → n ≤ m.
