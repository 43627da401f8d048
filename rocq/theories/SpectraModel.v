(** Model of _division_of_data and of the frequency axis handling, over an arithmetic. *)
From Verif Require Export ArithModel.
Open Scope Z_scope.

(** dynaphopy/power_spectrum/__init__.py:33-51 _division_of_data(resolution, number_of_data, time_step).
    [None]: ZeroDivisionError (piece_size 0) or int()/round() of inf/nan.  int/int true division is
    the division of the arithmetic (exact below 2^53). *)
Definition division_of_data (A : arith) (resolution : num A) (number_of_data : Z) (time_step : num A) : option (list (Z * Z)) :=
  obind (rnd (div (of_int 1) (mul time_step resolution))) (fun piece_size =>
  if piece_size =? 0 then None else
  obind (@trunc A (div (of_int (number_of_data - 1)) (of_int piece_size))) (fun number_of_pieces =>
  let '(interval, number_of_pieces, piece_size) :=
    if 0 <? number_of_pieces
    then (@div A (of_int (number_of_data - piece_size)) (of_int number_of_pieces), number_of_pieces, piece_size)
    else (@of_int A 0, 1, number_of_data) in
  omap_list (fun i =>
    let half := @div A (of_int piece_size) (of_int 2) in
    let centre := add half (mul (of_int i) interval) in
    obind (trunc (sub centre half)) (fun ini =>
    obind (trunc (add centre half)) (fun fin => Some (ini, fin))))
  (zrange (number_of_pieces + 1)))).

(** numpy.arange(start, stop, step) for floats: length ceil((stop-start)/step), elements
    start + k*((start+step)-start) *)
Definition arange (A : arith) (start stop step : num A) : option (list (num A)) :=
  obind (ceiling (div (sub stop start) step)) (fun n =>
  let delta := @sub A (add start step) start in
  Some (map (fun k => match k with 0 => start | 1 => add start step | _ => add start (mul (of_int k) delta) end) (zrange n))).

(** The part of the state touched here: parameters.frequency_range and spectrum_resolution. *)
Record axis (A : arith) := MkAxis { frange : list (num A); resol : num A }.
Arguments MkAxis {A}. Arguments frange {A}. Arguments resol {A}.
(** dynaphopy/__init__.py:139-142 _set_frequency_range: the comparison only decides about clearing
    caches (modelled in QuasiModel); the stored value is the argument either way.
    dynaphopy/__init__.py:149-151 set_frequency_limits *)
Definition set_frequency_limits {A} (lo hi : num A) (s : axis A) : option (axis A) :=
  obind (arange A lo (add hi (resol s)) (resol s)) (fun r => Some (MkAxis r (resol s))).
(** dynaphopy/__init__.py:144-147 set_spectra_resolution; [None] on an empty range (IndexError) *)
Definition set_spectra_resolution {A} (r : num A) (s : axis A) : option (axis A) :=
  match frange s with
  | [] => None
  | lo :: _ => let hi := last (frange s) lo in
      obind (arange A lo (add hi r) r) (fun f => Some (MkAxis f r))
  end.
