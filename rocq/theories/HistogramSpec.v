(** Histograms of projections. *)
From Verif Require Export Base.
Open Scope R_scope.
(** number of samples x with a <= x < b, or a <= x <= b when the bin is closed *)
Definition samples_in (closed : bool) (a b : R) (l : list R) : nat :=
  length (filter (fun x => andb (if Rle_dec a x then true else false) (if closed then (if Rle_dec x b then true else false) else (if Rlt_dec x b then true else false))) l).
(** the component along the direction of every displacement of every atom of type j *)
Definition samples_of (nsteps nat_ : nat) (disp : nat -> nat -> vec) (types : list nat) (direction : vec) (j : nat) : list R :=
  flat_map (fun i => map (fun s => vdot (disp s i) direction / vnorm direction) (seq 0 nsteps)) (filter (fun i => Nat.eqb (nth i types 0%nat) j) (seq 0 nat_)).
Definition lowest (l : list R) (m : R) : Prop := In m l /\ forall x, In x l -> m <= x.
Definition highest (l : list R) (m : R) : Prop := In m l /\ forall x, In x l -> x <= m.
Definition Rsum (l : list R) : R := fold_right Rplus 0 l.
