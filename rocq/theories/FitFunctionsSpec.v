(** Specification vocabulary for peaks of real curves. *)
From Coq Require Export Reals.
From Coquelicot Require Export Coquelicot.
Open Scope R_scope.
(** p is the only highest point of the curve *)
Definition strict_max (f : R -> R) (p : R) : Prop := forall x, x <> p -> f x < f p.
Definition strict_min (f : R -> R) (p : R) : Prop := forall x, x <> p -> f p < f x.
(** the points where the curve exceeds half of its height above the base line form the interval of
    length w centred on p *)
Definition fwhm_centred (f : R -> R) (base p w : R) : Prop :=
  0 < w /\ forall x, (f p - base) / 2 <= f x - base <-> Rabs (x - p) <= w / 2.
(** integral over the whole real line *)
Definition integral_R (f : R -> R) (v : R) : Prop := is_RInt_gen f (Rbar_locally m_infty) (Rbar_locally p_infty) v.
