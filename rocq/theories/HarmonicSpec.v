(** Superpositions of harmonic lattice waves. *)
From Coq Require Import Reals.
From Coquelicot Require Import Complex.
From Coq Require Export List.
Export ListNotations.
Open Scope R_scope.
(** sum of f 0, ..., f (n-1) *)
Fixpoint Sum (n : nat) (f : nat -> R) : R := match n with O => 0 | S n => Sum n f + f n end.
(** real part of e * exp(i theta) *)
Definition wave (e : C) (theta : R) : R := fst e * cos theta - snd e * sin theta.
Definition modulus2 (e : C) : R := fst e * fst e + snd e * snd e.
