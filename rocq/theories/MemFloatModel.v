(** c/mem.c over an arbitrary arithmetic, to be run with the exact reals (the model MemModel) and with IEEE binary64 doubles,
    rounding to nearest even, no fused multiply-add, pow(x, 2) = x * x (as gcc compiles it). *)
From Verif Require Export MemModel.
From Flocq Require Export Core BinarySingleNaN.
From Coq Require Import Reals ZArith List.

Record arith (T : Type) := MkArith {
  zero : T; one : T; two : T; tiny : T;             (* 0.0, 1.0, 2.0, 1.0e-6 *)
  add : T -> T -> T; sub : T -> T -> T; mul : T -> T -> T; div : T -> T -> T;
  fabs : T -> T; less : T -> T -> bool;             (* fabs, < *)
  differs_from_zero : T -> bool;                    (* x != 0.0 *)
  of_int : nat -> T }.                              (* conversion of an int to double *)
Arguments zero {T}. Arguments one {T}. Arguments two {T}. Arguments tiny {T}. Arguments add {T}. Arguments sub {T}. Arguments mul {T}.
Arguments div {T}. Arguments fabs {T}. Arguments less {T}. Arguments differs_from_zero {T}. Arguments of_int {T}.

Section Generic.
Context {T : Type} (A : arith T).
Local Open Scope c_scope.
(** pow(x, 2) *)
Definition square (x : T) : T := mul A x x.
Record gstate := MkG { g_wk1 : arr T; g_wk2 : arr T; g_wkm : arr T; g_coef : arr T; g_msd : T }.
Inductive grun := GGo (s : gstate) | GRet (x : T) (coef : arr T).
(** c/mem.c:209 *)
Definition g_power (data : arr T) (N : nat) : option T := for_ 1 N (fun j p => x <- rd data j; Some (add A p (square x))) (zero A).
(** c/mem.c:212-218 *)
Definition g_fill (data : arr T) (N : nat) : option (arr T * arr T) :=
  d1 <- rd data 1; wk1 <- wr (malloc N) 1 d1;
  dN <- rd data N; wk2 <- wr (malloc N) (N - 1) dN;
  for_ 2 (N - 2) (fun j w => d <- rd data j; a <- wr (fst w) j d; d' <- rd data j; b <- wr (snd w) (j - 1) d'; Some (a, b)) (wk1, wk2).
(** c/mem.c:221-226: Numerator and Denominator *)
Definition g_sums (N k : nat) (wk1 wk2 : arr T) : option (T * T) :=
  for_ 1 (N - k) (fun j nd => a <- rd wk1 j; b <- rd wk2 j; Some (add A (fst nd) (mul A a b), add A (snd nd) (add A (square a) (square b)))) (zero A, zero A).
(** c/mem.c:230: 2.0 * Numerator / Denominator *)
Definition g_reflection (nd : T * T) : T := div A (mul A (two A) (fst nd)) (snd nd).
(** c/mem.c:232: MeanSquareDiscrepancy *= (1.0 - pow(Coefficients[k], 2)) *)
Definition g_discrepancy (msd ck : T) : T := mul A msd (sub A (one A) (square ck)).
(** c/mem.c:234 *)
Definition g_coefs (k : nat) (wkm coef : arr T) : option (arr T) :=
  for_ 1 (k - 1) (fun i c => a <- rd wkm i; ck <- rd c k; b <- rd wkm (k - i); wr c i (sub A a (mul A ck b))) coef.
(** c/mem.c:238 *)
Definition g_save (k : nat) (wkm coef : arr T) : option (arr T) := for_ 1 k (fun i w => c <- rd coef i; wr w i c) wkm.
(** c/mem.c:240-243 *)
Definition g_update (N k : nat) (wkm : arr T) (wk1 wk2 : arr T) : option (arr T * arr T) :=
  for_ 1 (N - k - 1) (fun j w =>
    a <- rd (fst w) j; r <- rd wkm k; b <- rd (snd w) j; w1 <- wr (fst w) j (sub A a (mul A r b));
    b' <- rd (snd w) (j + 1); r' <- rd wkm k; a' <- rd w1 (j + 1); w2 <- wr (snd w) j (sub A b' (mul A r' a'));
    Some (w1, w2)) (wk1, wk2).
(** c/mem.c:220-244 *)
Definition g_iter (N M : nat) (k : nat) (r : grun) : option grun :=
  match r with
  | GRet x c => Some (GRet x c)
  | GGo s =>
    nd <- g_sums N k (g_wk1 s) (g_wk2 s);
    if less A (fabs A (snd nd)) (tiny A) then Some (GRet (zero A) (g_coef s)) else
    let ck := g_reflection nd in
    coef <- wr (g_coef s) k ck;
    let msd := g_discrepancy (g_msd s) ck in
    coef <- g_coefs k (g_wkm s) coef;
    if k =? M then Some (GGo (MkG (g_wk1 s) (g_wk2 s) (g_wkm s) coef msd)) else
    wkm <- g_save k (g_wkm s) coef;
    w <- g_update N k wkm (g_wk1 s) (g_wk2 s);
    Some (GGo (MkG (fst w) (snd w) wkm coef msd))
  end.
(** c/mem.c:199-252 *)
Definition g_coefficients (data : arr T) (N M : nat) : option (T * arr T) :=
  p <- g_power data N;
  w <- g_fill data N;
  r <- for_ 1 M (g_iter N M) (GGo (MkG (fst w) (snd w) (malloc M) (malloc (M + 1)) (div A p (of_int A N))));
  match r with GRet x c => Some (x, c) | GGo s => Some (g_msd s, g_coef s) end.
(** c/mem.c:184-196; [z i] is what cpow(cexp(i Delta), i) returns.  Complex product (a c - b d, a d + b c);
    conj by 0 - y (differs from the sign flip only in the sign of a zero imaginary part). *)
Definition g_times (x y : T * T) : T * T :=
  (sub A (mul A (fst x) (fst y)) (mul A (snd x) (snd y)), add A (mul A (fst x) (snd y)) (mul A (snd x) (fst y))).
Definition g_evaluation (z : nat -> T * T) (coef : arr T) (M : nat) (msd : T) : option T :=
  sum <- for_ 1 M (fun i s => c <- rd coef i; let prod := g_times (c, zero A) (z i) in Some (sub A (fst s) (fst prod), sub A (snd s) (snd prod))) (one A, zero A);
  Some (div A msd (fst (g_times sum (fst sum, sub A (zero A) (snd sum))))).
(** c/mem.c:100-182 for one frequency *)
Definition g_frequency (z : nat -> T * T) (dr di : arr T) (N M : nat) (dt : T) : option T :=
  r <- g_coefficients dr N M;
  i <- g_coefficients di N M;
  s <- (if differs_from_zero A (fst r) then v <- g_evaluation z (snd r) M (fst r); Some (add A (zero A) v) else Some (zero A));
  s <- (if differs_from_zero A (fst i) then v <- g_evaluation z (snd i) M (fst i); Some (add A s v) else Some s);
  Some (mul A s dt).
End Generic.
Arguments gstate : clear implicits. Arguments grun : clear implicits.
Arguments MkG {T}. Arguments GGo {T}. Arguments GRet {T}. Arguments g_wk1 {T}. Arguments g_wk2 {T}. Arguments g_wkm {T}. Arguments g_coef {T}. Arguments g_msd {T}.

(** exact arithmetic *)
Definition exact : arith R := MkArith R 0%R 1%R 2%R (1 / 1000000)%R Rplus Rminus Rmult Rdiv Rabs
  (fun a b => if Rlt_dec a b then true else false) (fun a => if Req_EM_T a 0 then false else true) INR.

(** double precision *)
Definition float64 : Type := binary_float 53 1024.
Global Instance prec53 : Prec_gt_0 53 := eq_refl.
Global Instance emax1024 : Prec_lt_emax 53 1024 := eq_refl.
(** m * 2^e, rounded *)
Definition literal (m e : Z) : float64 := binary_normalize 53 1024 prec53 emax1024 mode_NE m e false.
Definition ieee : arith float64 := MkArith float64 (literal 0 0) (literal 1 0) (literal 2 0)
  (literal 4722366482869645 (-72))       (* the double nearest to 1.0e-6 *)
  (Bplus mode_NE) (Bminus mode_NE) (Bmult mode_NE) (Bdiv mode_NE) (@Babs 53 1024)
  (fun a b => match Bcompare a b with Some Lt => true | _ => false end)
  (fun a => match Bcompare a (literal 0 0) with Some Eq => false | _ => true end)
  (fun n => literal (Z.of_nat n) 0).
