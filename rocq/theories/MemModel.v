(** Model of c/mem.c (maximum entropy method).  Arrays are CMem arrays, double is R. *)
From Verif Require Export CMem CorrelationModel.
Open Scope R_scope.
Local Open Scope c_scope.

(** local variables of the main loop, c/mem.c:201-206 *)
Record mstate := MkM { m_wk1 : arr R; m_wk2 : arr R; m_wkm : arr R; m_coef : arr R; m_msd : R }.
(** running, or already left by "return" (value, coefficient array) *)
Inductive mrun := Go (s : mstate) | Ret (x : R) (coef : arr R).

(** c/mem.c:209: for (j=1; j <= NumberOfData; j++) p += pow(Data[j], 2); *)
Definition mem_power (data : arr R) (N : nat) : option R :=
  for_ 1 N (fun j p => x <- rd data j; Some (p + x ^ 2)) 0.

(** c/mem.c:212-218: filling wk1 and wk2 *)
Definition mem_fill (data : arr R) (N : nat) : option (arr R * arr R) :=
  d1 <- rd data 1; wk1 <- wr (malloc N) 1 d1;
  dN <- rd data N; wk2 <- wr (malloc N) (N - 1) dN;
  for_ 2 (N - 2) (fun j w => d <- rd data j; a <- wr (fst w) j d; d' <- rd data j; b <- wr (snd w) (j - 1) d'; Some (a, b)) (wk1, wk2).

(** c/mem.c:223-226: Numerator and Denominator *)
Definition mem_sums (N k : nat) (wk1 wk2 : arr R) : option (R * R) :=
  for_ 1 (N - k) (fun j nd => a <- rd wk1 j; b <- rd wk2 j; Some (fst nd + a * b, snd nd + (a ^ 2 + b ^ 2))) (0, 0).

(** c/mem.c:234: Coefficients[i] = wkm[i] - Coefficients[k] * wkm[k-i] for 1 <= i <= k-1 *)
Definition mem_coefs (k : nat) (wkm coef : arr R) : option (arr R) :=
  for_ 1 (k - 1) (fun i c => a <- rd wkm i; ck <- rd c k; b <- rd wkm (k - i); wr c i (a - ck * b)) coef.
(** c/mem.c:238: wkm[i] = Coefficients[i] for 1 <= i <= k *)
Definition mem_save (k : nat) (wkm coef : arr R) : option (arr R) :=
  for_ 1 k (fun i w => c <- rd coef i; wr w i c) wkm.
(** c/mem.c:240-243: in-place update of wk1 and wk2 *)
Definition mem_update (N k : nat) (wkm : arr R) (wk1 wk2 : arr R) : option (arr R * arr R) :=
  for_ 1 (N - k - 1) (fun j w =>
    a <- rd (fst w) j; r <- rd wkm k; b <- rd (snd w) j; w1 <- wr (fst w) j (a - r * b);
    b' <- rd (snd w) (j + 1); r' <- rd wkm k; a' <- rd w1 (j + 1); w2 <- wr (snd w) j (b' - r' * a');
    Some (w1, w2)) (wk1, wk2).

(** c/mem.c:220-244: one iteration of the main loop *)
Definition mem_iter (N M : nat) (k : nat) (r : mrun) : option mrun :=
  match r with
  | Ret x c => Some (Ret x c)
  | Go s =>
    nd <- mem_sums N k (m_wk1 s) (m_wk2 s);
    if Rlt_dec (Rabs (snd nd)) (1 / 1000000) then Some (Ret 0 (m_coef s)) else
    let ck := 2 * fst nd / snd nd in
    coef <- wr (m_coef s) k ck;
    let msd := m_msd s * (1 - ck ^ 2) in
    coef <- mem_coefs k (m_wkm s) coef;
    if k =? M then Some (Go (MkM (m_wk1 s) (m_wk2 s) (m_wkm s) coef msd)) else
    wkm <- mem_save k (m_wkm s) coef;
    w <- mem_update N k wkm (m_wk1 s) (m_wk2 s);
    Some (Go (MkM (fst w) (snd w) wkm coef msd))
  end.

(** c/mem.c:199-252 GetCoefficients(Data, N, M, Coefficients) with a caller-allocated array of M+1
    doubles (c/mem.c:136-137).  Returns the discrepancy and the coefficient array. *)
Definition GetCoefficients (data : arr R) (N M : nat) : option (R * arr R) :=
  p <- mem_power data N;
  w <- mem_fill data N;
  r <- for_ 1 M (mem_iter N M) (Go (MkM (fst w) (snd w) (malloc M) (malloc (M + 1)) (p / INR N)));
  match r with Ret x c => Some (x, c) | Go s => Some (m_msd s, m_coef s) end.

Fixpoint Cpow (z : C) (n : nat) : C := match n with O => RtoC 1 | S m => Cmult z (Cpow z m) end.
(** c/mem.c:184-196 FrequencyEvaluation; the caller guards MeanSquareDiscrepancy != 0; cpow(z, i) = z^i *)
Definition FrequencyEvaluation (delta : R) (coef : arr R) (M : nat) (msd : R) : option R :=
  sum <- for_ 1 M (fun i s => c <- rd coef i; Some (Cminus s (Cmult (RtoC c) (Cpow (cexp (Cbuild 0 delta)) i)))) (RtoC 1);
  Some (msd / Re (Cmult sum (Cconj sum))).

(** c/mem.c:100-182 MaximumEntropyMethod for one frequency: real and imaginary parts of the
    velocity are treated separately; [dr], [di] are the buffers Velocity_r, Velocity_i. *)
Definition mem_frequency (dr di : arr R) (N M : nat) (dt freq : R) : option R :=
  r <- GetCoefficients dr N M;
  i <- GetCoefficients di N M;
  let w := freq * 2 * PI * dt in
  a <- (if Req_EM_T (fst r) 0 then Some 0 else FrequencyEvaluation w (snd r) M (fst r));
  b <- (if Req_EM_T (fst i) 0 then Some 0 else FrequencyEvaluation w (snd i) M (fst i));
  Some ((a + b) * dt).
