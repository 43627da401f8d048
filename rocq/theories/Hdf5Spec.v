(** Specification vocabulary for stored trajectories. *)
From Coq Require Import List Arith.
Import ListNotations.
(** the steps numbered a, ..., b (from 1, both included) of a data set *)
Definition steps {A} (a b : nat) (l w : list A) : Prop :=
  (forall i, a <= i <= b -> 1 <= i -> nth_error w (i - a) = nth_error l (i - 1)) /\ length w = min b (length l) - (a - 1).
(** data without its first steps *)
Definition without_first {A} (first : nat) (l w : list A) : Prop := exists h, l = h ++ w /\ length h = min first (length l).
(** what one simulation saved *)
Record run (A : Type) := MkRun { time : list A; dims : list A; trajectory : option (list A); velocity : option (list A); projected : option (list A); wave_vector : option (list A) }.
Arguments MkRun {A}. Arguments time {A}. Arguments dims {A}. Arguments trajectory {A}. Arguments velocity {A}. Arguments projected {A}. Arguments wave_vector {A}.
(** the data of the runs one after the other, each without its first steps *)
Definition glued {A} (first : nat) (ds : list (option (list A))) (w : list A) : Prop :=
  exists parts, Forall2 (fun d p => exists l, d = Some l /\ without_first first l p) ds parts /\ w = concat parts.
(** every run has the data sets that the first one has *)
Definition alike {A} (r0 : run A) (rs : list (run A)) : Prop := Forall (fun r =>
  (trajectory r0 <> None -> trajectory r <> None) /\ (velocity r0 <> None -> velocity r <> None) /\ (projected r0 <> None -> projected r <> None)) rs.
Definition well_saved {A} (r : run A) : Prop := projected r <> None -> wave_vector r <> None.
