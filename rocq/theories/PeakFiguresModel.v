(** Model of the figures, the printed frequency shifts and the returned values of phonon_fitting_analysis
    (dynaphopy/analysis/fitting/__init__.py:40-190).  The grouping of degenerate branches is FittingModel's, the fit of one branch is the fit object
    of FitObjectModel.  Real arithmetic; the occupation and temperature printed for a branch are in OccupancyModel and left out here, as are the
    labels of the axes. *)
From Verif Require Export FittingModel FitObjectModel.
From Coq Require Export Reals List.
Export ListNotations.
Open Scope R_scope.

(** np.max and np.argmax (the first of the largest); None for an empty array (ValueError) *)
Fixpoint max_from (best : R) (where_ k : nat) (l : list R) : R * nat :=
  match l with
  | [] => (best, where_)
  | x :: l' => if Rltb best x then max_from x k (S k) l' else max_from best where_ (S k) l'
  end.
Definition max_argmax (l : list R) : option (R * nat) := match l with [] => None | x :: l' => Some (max_from x 0 1 l') end.

Record figure := MkFigure {
  fig_number : nat;                  (* plt.figure(i+1) *)
  fig_phonon : nat;                  (* plt.suptitle('Phonon {i+1}') *)
  fig_text : R * R * R;              (* plt.text: x, y and the width written there *)
  fig_spectrum : list R * list R;    (* 'Power spectrum': abscissas and ordinates *)
  fig_fit : list R * list R;         (* fitting_function.curve_name *)
  fig_line : R;                      (* dashed vertical line *)
  fig_band : option (R * R);         (* red band *)
  fig_xlim : R * R }.
(** what is printed for a branch and used here: "Frequency shift" and "Frequency shift (+T. exp.)" *)
Record printed := MkPrinted { pr_position : R; pr_width : R; pr_shift : option R; pr_shift_texp : option R }.
Record branch := MkBranch { b_printed : option printed; b_position : R; b_width : R; b_figure : option figure }.

Section Analysis.
Context (kind : shape) (xs : list R) (spectra : list (list R))   (* original, one list per column *)
        (harmonic : option (list R)) (use_degeneracy show_plots alpha_accepted : bool) (cutoff : R)
        (optimise : nat -> nat -> option (list R) -> outcome)    (* branch, call *)
        (best : coefficients -> R).
(** original[w, j] *)
Definition datum (w j : nat) : R := nth w (nth j spectra []) 0.
(** dynaphopy/analysis/fitting/__init__.py:56-60 power_spectrum; None: len(None), or no set contains the branch *)
Definition analysed (i : nat) : option (list R) :=
  if use_degeneracy then
    match harmonic with
    | None => None
    | Some hs =>
      let degeneracy := degenerate_sets (fun k => nth k hs 0) cutoff (length hs) in
      if existsb (existsb (Nat.eqb i)) degeneracy
      then Some (map (fun w => match average_phonon i datum degeneracy w with Some x => x | None => 0 end) (seq 0 (length xs)))
      else None
    end
  else nth_error spectra i.
(** dynaphopy/analysis/fitting/__init__.py:62-73: the fit object of a branch and its report *)
Definition requests (q : list request) (i : nat) (position height : R) : list response :=
  snd (answers kind xs (Some position) (Some height) (optimise i) best fresh q).
(** dynaphopy/analysis/fitting/__init__.py:54-185 one branch; None: an exception ends the analysis *)
Definition one_branch (shift : option (list R)) (i : nat) : option branch :=
  match analysed i with
  | None => None
  | Some power_spectrum =>
    match max_argmax power_spectrum with
    | None => None
    | Some (guess_height, k) =>
      match nth_error xs k with
      | None => None
      | Some guess_position =>
        match requests [AskFitting; AskCurve xs] i guess_position guess_height with
        | NotGood :: _ => Some (MkBranch None 0 0 None)
        | [Report r; Curve ys] =>
          let position := r_position r in
          match (match harmonic with None => Some None | Some hs => option_map (fun h => Some (position - h)) (nth_error hs i) end) with
          | None => None
          | Some frequency_shift =>
            match (match shift with
                   | None => Some (None, position)
                   | Some ts => match frequency_shift, nth_error ts i with
                                | Some f, Some t => Some (Some (f + t), position + t)
                                | _, _ => None
                                end
                   end) with
            | None => None
            | Some (with_texp, position') =>
              Some (MkBranch (Some (MkPrinted position (r_width r) frequency_shift with_texp)) position' (r_width r)
                (if show_plots then
                   Some (MkFigure (i + 1) (i + 1) (position' + r_width r, guess_height / 2, r_width r) (xs, power_spectrum) (xs, ys) position'
                           (if alpha_accepted then Some (position' - r_width r / 2, position' + r_width r / 2) else None)
                           (nth 0 xs 0, last xs 0))
                 else None))
            end
          end
        | _ => None
        end
      end
    end
  end.
(** dynaphopy/analysis/fitting/__init__.py:54 for i in range(original.shape[1]) *)
Fixpoint branches (shift : option (list R)) (is : list nat) : option (list branch) :=
  match is with
  | [] => Some []
  | i :: is' => match one_branch shift i with
                | None => None
                | Some b => option_map (cons b) (branches shift is')
                end
  end.
Definition peak_analysis (shift : option (list R)) : option (list branch) := branches shift (seq 0 (length spectra)).
End Analysis.
