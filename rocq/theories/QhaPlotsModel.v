(** Model of the shift plots of scripts/qha_quasiparticle.py (class ForceConstantsFitting, 333-384 and 425-476), of the dispersion plot at
    constant pressure (QuasiparticlesQHA, 737-783) and of the commands at the end of the script (838-862).  Exact reals.
    The fit (np.polyfit) and the spline (interp1d) are uninterpreted; windows and colours are not modelled. *)
From Verif Require Export QhaPressureModel.
Open Scope R_scope.

(** one entry of a quasiparticle data file: wave vector, renormalized frequencies, frequency shifts (dynaphopy/interface/iofile/__init__.py:526-560) *)
Record sentry := MkSE { s_q : vec; s_frequencies : list R; s_shifts : list R }.
Definition s_none : sentry := MkSE (V3 0 0 0) [] [].
(** what get_shift_matrix_temperature and get_shift_matrix_volume read of a file (scripts/qha_quasiparticle.py:112-116, 135-140) *)
Definition frequencies_of (file : list sentry) : table2 := fun q b => nth b (s_frequencies (nth q file s_none)) 0.

(** scripts/qha_quasiparticle.py:323-331 qpoint_to_index, on these files *)
Fixpoint s_index_from (i : nat) (q : vec) (data : list sentry) : option nat :=
  match data with [] => None | e :: t => if allclose (s_q e) q then Some i else s_index_from (S i) q t end.
Definition s_index (files : list (list sentry)) (q : vec) : option nat := match files with f :: _ => s_index_from 0 q f | [] => None end.

(** data[qindex]['frequency_shifts'] of the first n files (430-433, 450-453, 462-465); None: IndexError *)
Fixpoint file_shifts (n : nat) (files : list (list sentry)) (qindex : nat) : option (list (list R)) :=
  match n, files with
  | O, _ => Some []
  | S n, f :: files => match nth_error f qindex, file_shifts n files qindex with Some e, Some r => Some (s_shifts e :: r) | _, _ => None end
  | S _, [] => None
  end.
(** np.array(rows).T[b] for rows of the same length *)
Definition column (b : nat) (rows : list (list R)) : list R := map (fun row => nth b row 0) rows.

(** a drawn series: abscissae and ordinates *)
Definition points := list (R * R).
Definition width (rows : list (list R)) : nat := match rows with [] => 0%nat | r :: _ => List.length r end.
(** matplotlib with a table draws one series per column; with branch b only column b.  None: IndexError for a branch that does not exist *)
Definition draw (x : list R) (rows : list (list R)) (branch : option nat) : option (list points) :=
  match branch with
  | None => Some (map (fun b => combine x (column b rows)) (seq 0 (width rows)))
  | Some b => if Nat.ltb b (width rows) then Some [combine x (column b rows)] else None
  end.

(** scripts/qha_quasiparticle.py:741-748 replace_list: [substitutions.iteritems()] exists in Python 2 only; None: AttributeError.  [show] is the
    replacement itself *)
Definition qha_replace_list (python : nat) (show : string -> string) (s : string) : option string := if Nat.eqb python 2 then Some (show s) else None.
Fixpoint all_labels (f : string -> option string) (l : list string) : option (list string) :=
  match l with [] => Some [] | x :: l => match f x, all_labels f l with Some y, Some r => Some (y :: r) | _, _ => None end end.
(** scripts/qha_quasiparticle.py:737-783 plot_band_structure_constant_pressure: the label calls (764-781), in the order of the program, and the external data
    (782: [external_data[:, 0]], None: TypeError).  The result: the tick names drawn (None: no labels in the path).  A path without stretches is not modelled *)
Definition label_calls (labels : list (string * string)) : list string :=
  match labels with
  | [] => []
  | first :: _ =>
    flat_map (fun i => let here := nth i labels first in let prev := nth (if Nat.eqb i 0 then List.length labels - 1 else i - 1)%nat labels first in
      if String.eqb (fst here) (snd prev) then [fst here] else [snd prev; fst here]) (seq 0 (List.length labels))
    ++ [snd (last labels first); fst first]
  end.
Definition plot_band_structure_constant_pressure {D} (python : nat) (show : string -> string) (labels : option (list (string * string))) (external_data : option D) : option (option (list string)) :=
  match (match labels with None => Some None | Some l => option_map Some (all_labels (qha_replace_list python show) (label_calls l)) end), external_data with
  | Some t, Some _ => Some t
  | _, _ => None
  end.

(** what the script leaves behind: how it ended and the files it wrote *)
Inductive ending := Raised | Exited.
Record outcome := MkO { o_end : ending; o_files : list (string * list (list R)) }.

Section Plots.
Context (polyfit : list R -> list R -> nat -> R -> R) (interp : list (R * R) -> R -> option R).
Context (harmonic : table2) (files_t files_v : list (list sentry)) (temps vols : list R) (ref : R) (order : nat) (branches : nat).
(** the fitting object of QhaModel for these files *)
Definition fit_of : fitting := MkF harmonic temps (map frequencies_of files_t) vols (map frequencies_of files_v) ref order None None.

(** scripts/qha_quasiparticle.py:446-455 get_shift_temperature (the array is transposed: row = branch) and 457-476 plot_shift_temperature *)
Definition get_shift_temperature (q : vec) : option (list (list R)) :=
  match s_index files_t q with
  | Some k => option_map (fun rows => map (fun b => column b rows) (seq 0 (width rows))) (file_shifts (List.length temps) files_t k)
  | None => None
  end.
Definition plot_shift_temperature (q : vec) (branch : option nat) : option (list points) :=
  match s_index files_t q with
  | Some k => match file_shifts (List.length temps) files_t k with Some rows => draw temps rows branch | None => None end
  | None => None
  end.
(** scripts/qha_quasiparticle.py:425-444 plot_shift_volume: the wave vector is looked up in the first temperature file *)
Definition plot_shift_volume (q : vec) (branch : option nat) : option (list points) :=
  match s_index files_t q with
  | Some k => match file_shifts (List.length vols) files_v k with Some rows => draw vols rows branch | None => None end
  | None => None
  end.

(** np.arange(first, last, step) (340 and 366) *)
Definition chk_list (x : list R) (step : R) : list R := arange_from (arange_len (hd 0 x) (last x 0) step) (hd 0 x) (last x 0) step.
(** the values of a series that may raise *)
Fixpoint all_values (g : R -> option R) (l : list R) : option (list R) :=
  match l with [] => Some [] | x :: l => match g x, all_values g l with Some y, Some r => Some (y :: r) | _, _ => None end end.
(** scripts/qha_quasiparticle.py:333-357 plot_fitted_shifts_temperature for one branch: the line and the dots; None: exit() or ValueError *)
Definition plot_fitted_shifts_temperature (q : vec) (interpolated : bool) (b : nat) : option (points * points) :=
  match s_index files_t q with
  | None => None
  | Some k =>
    let x := chk_list temps 10 in
    match all_values (fun t => if interpolated then interpolated_t interp fit_of t k b else Some (fitted_t polyfit fit_of t k b)) x with
    | Some y => Some (combine x y, combine temps (shifts_t fit_of k b))
    | None => None
    end
  end.
(** scripts/qha_quasiparticle.py:359-384 plot_fitted_shifts_volumes *)
Definition plot_fitted_shifts_volumes (q : vec) (interpolate : bool) (b : nat) : option (points * points) :=
  match s_index files_t q with
  | None => None
  | Some k =>
    let x := chk_list vols (1 / 10) in
    match all_values (fun v => if interpolate then interpolated_v polyfit interp fit_of v k b else Some (fitted_v polyfit fit_of v k b)) x with
    | Some y => Some (combine x y, combine vols (shifts_v polyfit fit_of k b))
    | None => None
    end
  end.

(** * the end of the script *)
(** scripts/qha_quasiparticle.py:799-814 get_total_shift_constant_pressure(qpoint).T: one row per temperature, one column per branch; [qt], [qv]:
    the temperatures and volumes of PhonopyQHA.  None: exit() or the spline raises *)
Definition total_shift_table (qt qv : list R) (q : vec) : option (list (list R)) :=
  match s_index files_t q with
  | None => None
  | Some k =>
    option_map (fun cols => map (fun i => map (fun col => nth i col 0) cols) (seq 0 (Nat.min (List.length qt) (List.length qv))))
      ((fix go (bs : list nat) := match bs with [] => Some [] | b :: bs => match get_total_shift_constant_pressure polyfit interp qt qv fit_of k b, go bs with Some x, Some r => Some (x :: r) | _, _ => None end end)
         (seq 0 branches))
  end.
Definition completes {A} (x : option A) : bool := match x with Some _ => true | None => false end.
(** the point (0.5, 0.5, 0.5) *)
Definition corner : vec := V3 (1/2) (1/2) (1/2).
(** scripts/qha_quasiparticle.py:840-861 after the object was built: the two fitted plots (842-843), the experimental bands (846), the dispersion
    (847), the plots (850-854; the total shifts of branches 0 and 2 are drawn from the table saved afterwards), the two files (856-857), the
    prints and exit() (859-861).  The first call ends the program with exit() when the corner is not a commensurate point. *)
Definition main {D} (qt qv : list R) (experiment : option D) (python : nat) (show : string -> string) (labels : option (list (string * string))) : outcome :=
  match s_index files_t corner with
  | None => MkO Exited []
  | Some _ =>
    if (forallb (fun b => completes (plot_fitted_shifts_temperature corner false b)) (seq 0 branches) &&
        forallb (fun b => completes (plot_fitted_shifts_volumes corner false b)) (seq 0 branches))%bool then
      match experiment with
      | None => MkO Raised []
      | Some d =>
        match plot_band_structure_constant_pressure python show labels (Some d) with
        | None => MkO Raised []
        | Some _ =>
          match plot_shift_volume corner (Some 0%nat), total_shift_table qt qv corner with
          | Some _, Some t =>
            if Nat.ltb 2 branches then
              match get_shift_temperature corner with
              | Some s => MkO Exited [("shift_r"%string, t); ("tshift_r"%string, map (fun i => map (fun row => nth i row 0) s) (seq 0 (List.length temps)))]
              | None => MkO Raised [("shift_r"%string, t)]
              end
            else MkO Raised []
          | _, _ => MkO Raised []
          end
        end
      end
    else MkO Raised []
  end.
End Plots.
