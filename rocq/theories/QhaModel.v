(** Model of scripts/qha_extract and of the class ForceConstantsFitting of scripts/qha_quasiparticle.py.
    Not modelled: file reading (the arrays read are inputs), PhonopyQHA and the polynomial / spline kernels (uninterpreted), plots. *)
From Verif Require Export Base.
From Coq Require Export String List Permutation.
Export ListNotations.
Open Scope R_scope.

(** * qha_extract *)
(** np.argsort(volumes): insertion into a list of positions (any order of equal volumes is allowed by numpy; equal volumes are not
    accepted by interp1d anyway) *)
Fixpoint insert_index (v : nat -> R) (i : nat) (l : list nat) : list nat :=
  match l with [] => [i] | j :: l => if Rle_dec (v i) (v j) then i :: j :: l else j :: insert_index v i l end.
Definition argsort (v : list R) : list nat := fold_right (insert_index (fun i => nth i v 0)) [] (seq 0 (length v)).
(** fancy indexing a[index] *)
Definition take {A} (d : A) (l : list A) (index : list nat) : list A := map (fun i => nth i l d) index.

(** one thermal properties file: rows (temperature, entropy, free energy, heat capacity) *)
Record row := MkR { t_temperature : R; t_entropy : R; t_free : R; t_cv : R }.
Section Extract.
Context {FC : Type}
  (qha : list R -> list R -> list R -> list (list R) -> list (list R) -> list (list R) -> list R)   (* PhonopyQHA(volumes, energies, temperatures, free_energy, cv, entropy).volume_temperature *)
  (interp_fc : list (R * FC) -> R -> option FC)      (* interp1d(x, y, kind='quadratic')(x'), element by element; None: ValueError *)
  (interp : list (R * R) -> R -> option R).
(** scripts/qha_extract:82-84: np.array(x).T[:, sort_index]: rows are temperatures, columns volumes *)
Definition table (get : row -> R) (files : list (list row)) (index : list nat) : list (list R) :=
  map (fun k => take 0 (map (fun f => get (nth k f (MkR 0 0 0 0))) files) index) (seq 0 (length (hd [] files))).
(** scripts/qha_extract:77-113 and 125-138.  [temperatures] are those of the last file read (line 60 starts a new list for each file). *)
Definition temperatures (files : list (list row)) : list R := map t_temperature (last files []).
Definition equilibrium_volume (volumes energies : list R) (tp : list (list row)) (target : R) : option R :=
  let sort_index := argsort volumes in
  let vt := qha (take 0 volumes sort_index) (take 0 energies sort_index) (temperatures tp) (table t_free tp sort_index) (table t_cv tp sort_index) (table t_entropy tp sort_index) in
  interp (combine (firstn (List.length vt) (temperatures tp)) vt) target.
Definition extract (volumes energies : list R) (tp : list (list row)) (fc : list FC) (target : R) : option FC :=
  match equilibrium_volume volumes energies tp target with
  | Some volume => interp_fc (combine (take 0 volumes (argsort volumes)) fc) volume
  | None => None
  end.
End Extract.

(** * qha_quasiparticle.py: ForceConstantsFitting.  A file is the list over wave vectors and branches of its frequencies: [q b]. *)
Definition table2 := nat -> nat -> R.
Section Fitting.
Context (polyfit : list R -> list R -> nat -> R -> R)        (* np.poly1d(np.polyfit(x, y, order))(x') *)
  (interp : list (R * R) -> R -> option R).                  (* interp1d(x, y, kind='quadratic')(x') *)
Record fitting := MkF { f_harmonic : table2; f_temperatures : list R; f_files_t : list table2; f_volumes : list R; f_files_v : list table2;
                        f_reference : R; f_order : nat; f_tmin : option R; f_tmax : option R }.
(** scripts/qha_quasiparticle.py:103-122 get_shift_matrix_temperature: one list over the files for each (branch, wave vector) *)
Definition shifts_t (f : fitting) (q b : nat) : list R := map (fun file : table2 => file q b - f_harmonic f q b) (f_files_t f).
(** scripts/qha_quasiparticle.py:157-180 get_fitted_shifts_temperature *)
Definition fitted_t (f : fitting) (temperature : R) : table2 := fun q b => polyfit (f_temperatures f) (shifts_t f q b) (f_order f) temperature.
(** scripts/qha_quasiparticle.py:148-155 get_interpolated_shifts_temperature *)
Definition interpolated_t (f : fitting) (temperature : R) (q b : nat) : option R := interp (combine (f_temperatures f) (shifts_t f q b)) temperature.
(** scripts/qha_quasiparticle.py:124-146 get_shift_matrix_volume: relative to the fitted frequencies at the reference temperature *)
Definition reference (f : fitting) : table2 := fun q b => fitted_t f (f_reference f) q b + f_harmonic f q b.
Definition shifts_v (f : fitting) (q b : nat) : list R := map (fun file : table2 => file q b - reference f q b) (f_files_v f).
(** scripts/qha_quasiparticle.py:182-190 and 192-215 *)
Definition interpolated_v (f : fitting) (volume : R) (q b : nat) : option R := interp (combine (f_volumes f) (shifts_v f q b)) volume.
Definition fitted_v (f : fitting) (volume : R) : table2 := fun q b => polyfit (f_volumes f) (shifts_v f q b) (f_order f) volume.
(** scripts/qha_quasiparticle.py:253-268 get_total_shifts, for one (wave vector, branch); volume None is the first one *)
Definition get_total_shifts (f : fitting) (volume : option R) (temperature : R) (interpolate_temperature interpolate_volume : bool) (q b : nat) : option R :=
  let volume := match volume with Some v => v | None => hd 0 (f_volumes f) end in
  match (if interpolate_temperature then interpolated_t f temperature q b else Some (fitted_t f temperature q b)),
        (if interpolate_volume then Some (fitted_v f volume q b) else interpolated_v f volume q b) with
  | Some t, Some v => Some (t + v)
  | _, _ => None
  end.
(** scripts/qha_quasiparticle.py:270-277: the frequencies given to the force constants, default options *)
Definition total_frequency (f : fitting) (temperature : R) (volume : option R) (q b : nat) : option R :=
  option_map (fun s => f_harmonic f q b + s) (get_total_shifts f volume temperature false false q b).
End Fitting.
(** scripts/qha_quasiparticle.py:95-100 get_temperature_range(step=10): np.arange(tmin, tmax, step), exact arithmetic: the multiples k with tmin + k*step < tmax *)
Fixpoint arange_from (fuel : nat) (x stop step : R) : list R :=
  match fuel with O => [] | S fuel => if Rlt_dec x stop then x :: arange_from fuel (x + step) stop step else [] end.
Definition arange_len (start stop step : R) : nat := Z.to_nat (up ((stop - start) / step)).
Definition get_temperature_range (f : fitting) : list R :=
  let tmin := match f_tmin f with Some t => t | None => hd 0 (f_temperatures f) end in
  let tmax := match f_tmax f with Some t => t | None => last (f_temperatures f) 0 end in
  arange_from (arange_len tmin tmax 10) tmin tmax 10.
(** scripts/qha_quasiparticle.py:526-529: [if 'bands' in input_parameters is None] is the chained comparison ('bands' in p) and (p is None), and p is a dictionary;
    otherwise p['_band_ranges'], [None]: KeyError.  The reader stores the bands under '_band_ranges' (dynaphopy/interface/iofile/__init__.py:598-601). *)
Definition lookup {B} (key : string) (p : list (string * B)) : option B := option_map snd (find (fun kv => String.eqb (fst kv) key) p).
Definition band_choice {B} (p : list (string * B)) (automatic : B) : option B :=
  let is_none := false in
  if (match lookup "bands" p with Some _ => true | None => false end) && is_none then Some automatic else lookup "_band_ranges" p.
