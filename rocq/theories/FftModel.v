(** Model of the FFT power spectra of dynaphopy/power_spectrum/__init__.py.  Floating point numbers
    are real numbers, complex128 is Coquelicot's C. *)
From Verif Require Export SpectraModel.
From Coq Require Export Reals Permutation.
From Coquelicot Require Export Complex.
From Coq Require Export List.
Export ListNotations.
Open Scope R_scope.

Definition csum (l : list C) : C := fold_right Cplus (RtoC 0) l.
(** sum of f over 0 .. n-1 *)
Definition csumn (n : nat) (f : nat -> C) : C := csum (map f (seq 0 n)).
(** x[i] for an integer index, 0 outside the array (the convention of np.correlate) *)
Definition cget (x : list C) (i : Z) : C := if (0 <=? i)%Z then nth (Z.to_nat i) x (RtoC 0) else RtoC 0.
(** e^{i theta} *)
Definition cis (theta : R) : C := (cos theta, sin theta).

(** np.correlate(a, v, mode='same') for len a = len v = n: c_k = sum_j a[j+k] conj(v[j]) for the n lags
    k = -(n//2), ..., n-1-n//2 *)
Definition correlate_same (a v : list C) : list C :=
  map (fun m => csumn (length v) (fun j => Cmult (cget a (Z.of_nat j + (Z.of_nat m - Z.of_nat (length a / 2)))) (Cconj (cget v (Z.of_nat j)))))
      (seq 0 (length a)).
(** np.fft.fft: X_k = sum_m x_m e^{-2 pi i k m / n} *)
Definition fft (x : list C) : list C :=
  map (fun k => csumn (length x) (fun m => Cmult (nth m x (RtoC 0)) (cis (- (2 * PI * INR k * INR m / INR (length x))))))
      (seq 0 (length x)).
(** np.fft.fftfreq(n, d): [0, ..., (n-1)//2, -(n//2), ..., -1] / (d n) *)
Definition fftfreq (n : nat) (d : R) : list R :=
  map (fun k => (if (k <? (n + 1) / 2)%nat then INR k else INR k - INR n) / (d * INR n)) (seq 0 n).
(** freqs[idx] *)
Definition take (l : list R) (idx : list nat) : list R := map (fun k => nth k l 0) idx.
(** np.interp(x, xp, fp) for one x: xp given with fp as pairs; constant beyond both ends; [None] for
    empty arrays (ValueError) *)
Fixpoint interp1 (pts : list (R * R)) (x : R) : option R :=
  match pts with
  | [] => None
  | [(x0, y0)] => Some y0
  | (x0, y0) :: (((x1, y1) :: _) as tl) =>
      if Rle_dec x x0 then Some y0
      else if Rlt_dec x x1 then Some ((y1 - y0) / (x1 - x0) * (x - x0) + y0) else interp1 tl x
  end.
Definition interp (xs xp fp : list R) : option (list R) := omap_list (interp1 (combine xp fp)) xs.

(** data[ini:fin] for 0 <= ini *)
Definition slice (data : list C) (p : Z * Z) : list C := firstn (Z.to_nat (snd p) - Z.to_nat (fst p)) (skipn (Z.to_nat (fst p)) data).
(** dynaphopy/power_spectrum/__init__.py:233-238: spectrum of one piece *)
Definition piece_power (time_step : R) (piece : list C) : list R :=
  let c := map (fun z => Cdiv z (RtoC (INR (length piece)))) (correlate_same piece piece) in
  map (fun z => Cmod z * time_step) (fft c).
(** :240 np.average(ps, axis=0); [None] when there is no piece or their lengths differ *)
Definition average0 (ps : list (list R)) : option (list R) :=
  match ps with
  | [] => None
  | p :: _ => if forallb (fun q => Nat.eqb (length q) (length p)) ps
              then Some (map (fun k => fold_right Rplus 0 (map (fun q => nth k q 0) ps) / INR (length ps)) (seq 0 (length p)))
              else None
  end.
(** dynaphopy/power_spectrum/__init__.py:226-245 _numpy_power; the four back ends share the structure
    and differ in the line computing the spectrum of a piece ([one_piece]).  [argsort] stands for
    np.argsort (any function with its contract, see FftSpec.sorts).  [None]: an exception (frequency_range
    shorter than 2, no pieces, pieces of different lengths). *)
Definition fft_power (one_piece : R -> list C -> list R) (argsort : list R -> list nat) (frequency_range : list R) (data : list C) (time_step : R) : option (list R) :=
  match frequency_range with
  | f0 :: f1 :: _ =>
    obind (division_of_data exact (f1 - f0) (Z.of_nat (length data)) time_step) (fun pieces =>
    obind (average0 (map (fun p => one_piece time_step (slice data p)) pieces)) (fun ps =>
    let freqs := fftfreq (length (slice data (last pieces (0, 0)%Z))) time_step in
    let idx := argsort freqs in
    interp frequency_range (take freqs idx) (take ps idx)))
  | _ => None
  end.
Definition numpy_power := fft_power piece_power.
(** :276-296 _fftw_power: pyfftw's fft, same transform *)
Definition fftw_power := fft_power piece_power.
(** :321-341 _cuda_power: np.abs(cuda_fft(data_piece)*time_step) *)
Definition piece_power_cuda (time_step : R) (piece : list C) : list R :=
  let c := map (fun z => Cdiv z (RtoC (INR (length piece)))) (correlate_same piece piece) in
  map (fun z => Cmod (Cmult z (RtoC time_step))) (fft c).
Definition cuda_power := fft_power piece_power_cuda.
(** :368-399 _cupy_power: same operations on the GPU *)
Definition cupy_power := fft_power piece_power.
(** dynaphopy/power_spectrum/__init__.py:10 *)
Definition fft_unit_conversion : R := 10585723 / 100000000000.
(** dynaphopy/power_spectrum/__init__.py:438-446: the entries 2..5 of power_spectrum_functions *)
Definition fft_backend (algorithm : nat) : option ((list R -> list nat) -> list R -> list C -> R -> option (list R)) :=
  match algorithm with 2 => Some numpy_power | 3 => Some fftw_power | 4 => Some cuda_power | 5 => Some cupy_power | _ => None end%nat.
(** dynaphopy/power_spectrum/__init__.py:248-270, 299-318, 344-363, 402-431: vq given by columns (one
    per coordinate); the result has one row per frequency and one column per coordinate.  The
    resolution warning and the progress bar are not modelled. *)
Definition get_fft_spectra (algorithm : nat) (argsort : list R -> list nat) (frequency_range : list R)
    (time_step : R) (columns : list (list C)) : option (list (list R)) :=
  obind (fft_backend algorithm) (fun power =>
  obind (omap_list (fun d => power argsort frequency_range d time_step) columns) (fun psd =>
  Some (map (fun k => map (fun col => nth k col 0 * fft_unit_conversion) psd) (seq 0 (length frequency_range))))).
