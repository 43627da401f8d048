(** Model in IEEE doubles of the FFT power spectra of dynaphopy/power_spectrum/__init__.py (226-245 and the three other back ends, 276-296,
    321-341, 368-399), to follow samples that are not numbers.  The same program in exact arithmetic is FftModel.  The Fourier transform is a
    kernel ([transform]); np.abs of a complex number ([modulus]) too.  np.correlate and np.average add in the order of the indices here (numpy
    may add in another order). *)
From Verif Require Export CMem MemFloatModel InvalidSampleModel.
From Flocq Require Import Core BinarySingleNaN.
From Coq Require Import ZArith List.
Import ListNotations.
Open Scope nat_scope.

Definition complex64 : Type := (float64 * float64)%type.
Definition fzero : float64 := zero ieee.
Definition czero : complex64 := (fzero, fzero).
Definition cadd (x y : complex64) : complex64 := g_plus ieee x y.
(** numpy's complex product: the four products, without the recovery of infinities of C99 *)
Definition ctimes (x y : complex64) : complex64 := g_times ieee x y.
(** numpy's division by a complex number with imaginary part 0 (Smith's algorithm): rat = 0 / n, scl = 1 / (n + 0 * rat) *)
Definition cdivide (x : complex64) (n : nat) : complex64 :=
  let d := of_int ieee n in
  let rat := div ieee fzero d in
  let scl := div ieee (one ieee) (add ieee d (mul ieee fzero rat)) in
  (mul ieee (add ieee (fst x) (mul ieee (snd x) rat)) scl, mul ieee (sub ieee (snd x) (mul ieee (fst x) rat)) scl).

(** dynaphopy/power_spectrum/__init__.py:237 np.correlate(x, x, mode='same'): lag i - n//2; the products whose partner is outside are left out *)
Definition partner (n i j : nat) : option nat := if n / 2 <=? j + i then if j + i - n / 2 <? n then Some (j + i - n / 2) else None else None.
Definition correlate_term (x : list complex64) (i : nat) (acc : complex64) (j : nat) : complex64 :=
  match partner (length x) i j with
  | Some k => cadd acc (ctimes (nth k x czero) (complex_conj (nth j x czero)))
  | None => acc
  end.
Definition correlate_same (x : list complex64) : list complex64 :=
  map (fun i => fold_left (correlate_term x i) (seq 0 (length x)) czero) (seq 0 (length x)).

Section Fft.
Context (transform : list complex64 -> list complex64)   (* np.fft.fft, pyfftw, the two CUDA back ends *)
        (modulus : complex64 -> float64)                 (* np.abs *)
        (unit_conversion : float64).                     (* dynaphopy/power_spectrum/__init__.py:10 *)
(** data[ini:fin] *)
Definition piece_of (data : list complex64) (p : nat * nat) : list complex64 := firstn (snd p - fst p) (skipn (fst p) data).
(** dynaphopy/power_spectrum/__init__.py:235-238: spectrum of one piece *)
Definition piece_power (time_step : float64) (piece : list complex64) : list float64 :=
  map (fun z => mul ieee (modulus z) time_step) (transform (map (fun c => cdivide c (length piece)) (correlate_same piece))).
(** dynaphopy/power_spectrum/__init__.py:240 np.average(ps, axis=0): pieces have equal lengths (otherwise numpy raises: None) *)
Definition average (ps : list (list float64)) : option (list float64) :=
  match ps with
  | [] => None
  | p :: _ => if forallb (fun q => length q =? length p) ps
              then Some (map (fun k => div ieee (fold_left (fun acc q => add ieee acc (nth k q fzero)) ps fzero) (of_int ieee (length ps))) (seq 0 (length p)))
              else None
  end.
(** np.interp (dynaphopy/power_spectrum/__init__.py:245) at one frequency x that is a number: [position] is where the search puts it; the frequencies of the table are numbers *)
Inductive place := Left | Right | At (j : nat) | Between (j : nat).
Definition equal (a b : float64) : bool := match Bcompare a b with Some Eq => true | _ => false end.
Definition np_interp (x : float64) (xp fp : list float64) (position : place) : option float64 :=
  match position with
  | Left => nth_error fp 0
  | Right => nth_error fp (length fp - 1)
  | At j => nth_error fp j
  | Between j =>
    match nth_error xp j, nth_error xp (S j), nth_error fp j, nth_error fp (S j) with
    | Some x0, Some x1, Some y0, Some y1 =>
      let slope := div ieee (sub ieee y1 y0) (sub ieee x1 x0) in
      let r := add ieee (mul ieee slope (sub ieee x x0)) y0 in
      Some (if is_nan64 r then
              let r' := add ieee (mul ieee slope (sub ieee x x1)) y1 in
              if is_nan64 r' then (if equal y0 y1 then y0 else r') else r'
            else r)
    | _, _, _, _ => None
    end
  end.
(** dynaphopy/power_spectrum/__init__.py:226-245 and 260-270 for one coordinate: the value at frequency x.  [order] sorts the frequencies (idx),
    [freqs] are the frequencies of the transform *)
Definition fft_value (pieces : list (nat * nat)) (data : list complex64) (time_step : float64) (freqs : list float64) (order : list nat) (x : float64) (position : place) : option float64 :=
  match average (map (fun p => piece_power time_step (piece_of data p)) pieces) with
  | None => None
  | Some ps => option_map (fun v => mul ieee v unit_conversion) (np_interp x (map (fun k => nth k freqs fzero) order) (map (fun k => nth k ps fzero) order) position)
  end.
End Fft.

(** a discrete Fourier transform as written in a book, for any table of phases *)
Definition schoolbook (phase : nat -> nat -> complex64) (x : list complex64) : list complex64 :=
  map (fun k => fold_left (fun acc m => cadd acc (ctimes (nth m x czero) (phase k m))) (seq 0 (length x)) czero) (seq 0 (length x)).
