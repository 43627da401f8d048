(** Eigenvectors of the modes at one wave vector, and following a mode from one set to another. *)
From Coq Require Export ZArith Reals Arith List String.
From Coquelicot Require Export Complex.
Export ListNotations.
Open Scope R_scope.
(** sum over c < n of conj(u c) * v c *)
Fixpoint inner (n : nat) (u v : nat -> C) : C := match n with O => RtoC 0 | S n => Cplus (inner n u v) (Cmult (Cconj (u n)) (v n)) end.
(** e c b: component c of mode b *)
Definition mode (e : nat -> nat -> C) (b : nat) : nat -> C := fun c => e c b.
Definition orthonormal (n : nat) (e : nat -> nat -> C) : Prop :=
  forall i j, (i < n)%nat -> (j < n)%nat -> inner n (mode e i) (mode e j) = RtoC (if Nat.eq_dec i j then 1 else 0).
(** more than half of mode i of the first set is mode j of the second *)
Definition same_mode (n : nat) (e e' : nat -> nat -> C) (i j : nat) : Prop := 1/2 < Rsqr (Cmod (inner n (mode e i) (mode e' j))).
(** a rearrangement of 0 .. n-1 *)
Definition rearrangement (n : nat) (s : nat -> nat) : Prop :=
  (forall i, (i < n)%nat -> (s i < n)%nat) /\ (forall i j, (i < n)%nat -> (j < n)%nat -> s i = s j -> i = j) /\
  (forall j, (j < n)%nat -> exists i, (i < n)%nat /\ s i = j).
(** two stretches sampled at the same points, with complete sets of modes, where every mode of the first is followed by one mode of the second
    at all the points *)
Definition followed (n points points' : nat) (e e' : nat -> nat -> nat -> C) : Prop :=
  points = points' /\ (0 < points)%nat /\ (forall q, (q < points)%nat -> orthonormal n (e q) /\ orthonormal n (e' q)) /\
  (forall i, (i < n)%nat -> exists j, (j < n)%nat /\ forall q, (q < points)%nat -> same_mode n (e q) (e' q) i j).
(** the stretches a, b one after the other in a list *)
Definition consecutive {A} (l : list A) (a b : A) : Prop := exists k, nth_error l k = Some a /\ nth_error l (S k) = Some b.
