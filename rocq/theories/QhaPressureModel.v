(** Model of the constant pressure part of scripts/qha_quasiparticle.py (class QuasiparticlesQHA, 500-835) and of the wave vector look-up of
    ForceConstantsFitting (323-331).  Exact reals; phonopy (dos, band structure, PhonopyQHA), polynomials and splines are uninterpreted.
    Not modelled: drawing, colours, reading of files (their contents are inputs). *)
From Verif Require Export QhaModel.
Open Scope R_scope.

(** l[::k] for k > 0: every k-th entry, starting with the first *)
Definition stride {A} (k : nat) (l : list A) : list A :=
  flat_map (fun i => if Nat.eqb (Nat.modulo i k) 0 then match nth_error l i with Some x => [x] | None => [] end else []) (seq 0 (List.length l)).
(** np.interp(x, xp, fp): None is ValueError (empty or lengths different); the abscissae are assumed increasing, as numpy does *)
Fixpoint interp_from (x x0 y0 : R) (l : list (R * R)) : R :=
  match l with
  | [] => y0
  | (x1, y1) :: l => if Rlt_dec x x1 then y0 + (y1 - y0) / (x1 - x0) * (x - x0) else interp_from x x1 y1 l
  end.
Definition np_interp (x : R) (xp fp : list R) : option R :=
  if Nat.eqb (List.length xp) (List.length fp) then
    match combine xp fp with
    | [] => None
    | (x0, y0) :: l => Some (if Rle_dec x x0 then y0 else interp_from x x0 y0 l)
    end
  else None.

Section Pressure.
Context {DOS FC : Type}.
Context (polyfit : list R -> list R -> nat -> R -> R) (spline : list (R * R) -> R -> option R)
        (dos_at : R -> R -> DOS)                 (* fc_fit.get_dos(temperature, volume) *)
        (constants_at : R -> R -> FC).           (* fc_fit.get_total_force_constants(temperature, volume) *)
Context (temperatures volumes : list R)          (* phonopy_qha: the temperatures analysed, the volume at each of them *)
        (fit_temperatures : list R).             (* fc_fit.get_temperature_range() *)

(** scripts/qha_quasiparticle.py:279-302 and 544-563: the table handed to PhonopyQHA, row = temperature, column = volume (np.array(..).T) *)
Definition property_table (property : R -> R -> R) (vols : list R) : list (list R) :=
  let by_volume := map (fun v => map (fun t => property t v) fit_temperatures) vols in
  map (fun k => map (fun r => nth k r 0) by_volume) (seq 0 (List.length fit_temperatures)).
(** scripts/qha_quasiparticle.py:729-735 get_volume_at_temperature *)
Definition get_volume_at_temperature (temperature : R) : option R := np_interp temperature temperatures volumes.
(** scripts/qha_quasiparticle.py:638-652 plot_dos_gradient: the curves, each with the temperature that colours it *)
Definition dos_gradient : list (R * DOS) := map (fun tv => (fst tv, dos_at (fst tv) (snd tv))) (combine (stride 40 fit_temperatures) (stride 20 volumes)).
(** scripts/qha_quasiparticle.py:791-797 get_FC_constant_pressure: the files FC_{t} *)
Definition get_FC_constant_pressure : list (R * FC) := map (fun tv => (fst tv, constants_at (fst tv) (snd tv))) (combine (stride 20 temperatures) (stride 20 volumes)).
(** scripts/qha_quasiparticle.py:799-815 get_total_shift_constant_pressure for the wave vector of index q and branch b: one value per temperature; None: the interpolation raises *)
Fixpoint total_shifts (f : fitting) (q b : nat) (vt : list (R * R)) : option (list R) :=
  match vt with
  | [] => Some []
  | (v, t) :: vt => match get_total_shifts polyfit spline f (Some v) t false false q b, total_shifts f q b vt with Some x, Some r => Some (x :: r) | _, _ => None end
  end.
Definition get_total_shift_constant_pressure (f : fitting) (q b : nat) : option (list R) := total_shifts f q b (combine volumes temperatures).
End Pressure.

(** one entry of a quasiparticle data file: wave vector and linewidths *)
Record entry := MkE { e_q : vec; e_linewidths : list R }.
(** np.allclose(a, b), default tolerances: |a - b| <= 1e-8 + 1e-5 |b| in every component *)
Definition close1 (a b : R) : bool := if Rle_dec (Rabs (a - b)) (1 / 10 ^ 8 + 1 / 10 ^ 5 * Rabs b) then true else false.
Definition allclose (a b : vec) : bool := close1 (vx a) (vx b) && close1 (vy a) (vy b) && close1 (vz a) (vz b).
(** scripts/qha_quasiparticle.py:323-331 qpoint_to_index: searched in the first temperature file; None: exit() *)
Fixpoint index_from (i : nat) (q : vec) (data : list entry) : option nat :=
  match data with [] => None | e :: t => if allclose (e_q e) q then Some i else index_from (S i) q t end.
Definition qpoint_to_index (file0 : list entry) (q : vec) : option nat := index_from 0 q file0.
(** scripts/qha_quasiparticle.py:386-403 plot_linewidth_volume (and 405-422 plot_linewidth_temperature): the curve through the files; None: not a commensurate point or IndexError *)
Fixpoint pick (k : nat) (files : list (list entry)) : option (list (list R)) :=
  match files with [] => Some [] | f :: t => match nth_error f k, pick k t with Some e, Some r => Some (e_linewidths e :: r) | _, _ => None end end.
Definition plot_linewidth (file0 : list entry) (files : list (list entry)) (q : vec) : option (list (list R)) :=
  match qpoint_to_index file0 q with Some k => pick k files | None => None end.
