(** Model of the memory management of the C extensions c/correlation.c, c/mem.c and c/displacements.c: which blocks and references each call acquires and
    gives back, in program order.  The numbers stored in the blocks are not modelled here (see CorrelationModel, MemModel, DisplacementsModel); malloc and the
    conversions of the arguments succeed.  sizeof(double) = sizeof(pointer) = 8, sizeof(_Dcomplex) = 16. *)
From Coq Require Export List Arith Lia Bool Permutation.
Export ListNotations.

(** a block is malloc'ed memory of some bytes or an owned reference to a Python object *)
Inductive kind := Bytes (n : nat) | Reference.
Definition block := (nat * kind)%type.
Record heap := MkHeap { next : nat; live : list block }.
(** None: free or Py_DECREF of something not owned (undefined behaviour) *)
Definition prog (A : Type) := heap -> option (A * heap).
Definition ret {A} (a : A) : prog A := fun h => Some (a, h).
Definition bind {A B} (m : prog A) (f : A -> prog B) : prog B := fun h => match m h with Some (a, h') => f a h' | None => None end.
Declare Scope ledger_scope.
Delimit Scope ledger_scope with ledger.
Notation "x <- e ; f" := (bind e (fun x => f)) (at level 61, e at next level, right associativity) : ledger_scope.
Notation "e ;; f" := (bind e (fun _ => f)) (at level 61, right associativity) : ledger_scope.
Open Scope ledger_scope.

Definition acquire (k : kind) : prog nat := fun h => Some (next h, MkHeap (S (next h)) ((next h, k) :: live h)).
Definition malloc (bytes : nat) : prog nat := acquire (Bytes bytes).
(** PyArray_FROM_OTF and PyArray_SimpleNew return a new reference *)
Definition new_reference : prog nat := acquire Reference.
Fixpoint drop (id : nat) (l : list block) : option (list block) :=
  match l with [] => None | b :: l => if fst b =? id then Some l else match drop id l with Some l' => Some (b :: l') | None => None end end.
(** free and Py_DECREF *)
Definition release (id : nat) : prog unit := fun h => match drop id (live h) with Some l => Some (tt, MkHeap (next h) l) | None => None end.

(** for (i = 0; i < n; i++) *)
Fixpoint repeat_ (n : nat) (m : prog unit) : prog unit := match n with O => ret tt | S n => m ;; repeat_ n m end.
(** for (i = 0; i < n; i++) p[i] = malloc(bytes) *)
Fixpoint malloc_rows (n bytes : nat) : prog (list nat) := match n with O => ret [] | S n => b <- malloc bytes; l <- malloc_rows n bytes; ret (b :: l) end.
(** for (i = 0; i < n; i++) free(p[i]) *)
Fixpoint release_all (l : list nat) : prog unit := match l with [] => ret tt | b :: l => release b ;; release_all l end.

(** * c/displacements.c *)
(** a matrix of n rows: the array of row pointers and the rows *)
Definition matrix := (nat * list nat)%type.
Definition new_matrix (n bytes : nat) : prog matrix := p <- malloc (8 * n); r <- malloc_rows n bytes; ret (p, r).
Definition free_matrix (m : matrix) : prog unit := release_all (snd m) ;; release (fst m).
(** c/displacements.c:271-304 *)
Fixpoint Determinant (n : nat) : prog unit :=
  match n with
  | O | 1 | 2 => ret tt
  | S (S (S _) as n1) => repeat_ n (m <- new_matrix n1 (8 * n1); Determinant n1 ;; free_matrix m)
  end.
(** c/displacements.c:307-350 *)
Definition CoFactor (n : nat) : prog matrix :=
  c <- new_matrix (n - 1) (8 * (n - 1)); b <- new_matrix n (8 * n);
  repeat_ n (repeat_ n (Determinant (n - 1))) ;; free_matrix c ;; ret b.
(** c/displacements.c:253-268 *)
Definition matrix_inverse (n : nat) : prog matrix :=
  b <- new_matrix n (8 * n); cof <- CoFactor n; repeat_ n (repeat_ n (Determinant n)) ;; ret b.
(** c/displacements.c:353-369 *)
Definition matrix_multiplication (n l m : nat) : prog matrix := new_matrix n (8 * m).
(** c/displacements.c:205-222 pymatrix_to_c_array_complex: only the array of pointers, of sizeof(_Dcomplex) each; 225-251 pymatrix_to_c_array_real *)
Definition pymatrix_to_c_array_complex (n : nat) : prog nat := malloc (16 * n).
Definition pymatrix_to_c_array_real (n : nat) : prog matrix := new_matrix n (8 * n).
(** c/displacements.c:96-201 atomic_displacements for a trajectory of N steps and a cell of n vectors; returns the result's reference *)
Definition atomic_displacements (N n : nat) : prog nat :=
  Trajectory_array <- new_reference; Positions_array <- new_reference; Cell_array <- new_reference;
  Displacement_object <- new_reference; Displacement <- pymatrix_to_c_array_complex N;
  Cell_c <- pymatrix_to_c_array_real n;
  Cell_i <- matrix_inverse n;
  Difference <- new_matrix n 8;
  repeat_ N (DifferenceMatrix <- matrix_multiplication n n 1; PeriodicDisplacement <- matrix_multiplication n n 1;
             free_matrix DifferenceMatrix ;; free_matrix PeriodicDisplacement) ;;
  free_matrix Difference ;; free_matrix Cell_i ;; release (fst Cell_c) ;;
  release Trajectory_array ;; release Positions_array ;; release Cell_array ;;
  ret Displacement_object.

(** * c/mem.c *)
(** c/mem.c:199-252 GetCoefficients: [small k] is the test on the denominator at iteration k (line 228), which returns without reaching 247-249 *)
Fixpoint leaves_early (small : nat -> bool) (k n : nat) : bool := match n with O => false | S n => small k || leaves_early small (S k) n end.
Definition GetCoefficients (N M : nat) (small : nat -> bool) : prog unit :=
  wk1 <- malloc (8 * N); wk2 <- malloc (8 * N); wkm <- malloc (8 * M);
  if leaves_early small 1 M then ret tt else release wk1 ;; release wk2 ;; release wkm.
(** c/mem.c:100-182 MaximumEntropyMethod for N data and M coefficients; [small_r], [small_i]: the tests for the real and imaginary parts *)
Definition MaximumEntropyMethod (N M : nat) (small_r small_i : nat -> bool) : prog nat :=
  velocity_array <- new_reference; frequency_array <- new_reference; PowerSpectrum_object <- new_reference;
  Coefficients_r <- malloc (8 * (M + 1)); Coefficients_i <- malloc (8 * (M + 1));
  Velocity_r <- malloc (8 * N); Velocity_i <- malloc (8 * N);
  GetCoefficients N M small_r ;; GetCoefficients N M small_i ;;
  release velocity_array ;; release frequency_array ;;
  release Velocity_r ;; release Coefficients_r ;; release Coefficients_i ;;
  ret PowerSpectrum_object.

(** * c/correlation.c *)
(** c/correlation.c:101-150 correlation_par; None: the method number was refused (139-142), NULL is returned *)
Definition correlation_par (valid_method : bool) : prog (option nat) :=
  velocity_array <- new_reference; frequency_array <- new_reference; PowerSpectrum_object <- new_reference;
  if valid_method then ret (Some PowerSpectrum_object) else ret None.
