(** Model of how scripts/qha_quasiparticle.py reads its quasiparticle files (class ForceConstantsFitting, 42-277, and the constructor of
    QuasiparticlesQHA, 500-573).  Exact reals.  None: the script raises.  Uninterpreted: the harmonic frequencies at a wave vector (phonopy),
    np.polyfit / np.poly1d, interp1d, and the thermal properties that phonopy computes from a table of frequencies.
    Not modelled: the yaml syntax of the files (their contents are inputs), eigenvectors, printing, the files saved and PhonopyQHA itself. *)
From Verif Require Export QhaModel.
Open Scope R_scope.

(** one entry of a quasiparticle data file: wave vector and renormalised frequencies *)
Record fentry := MkFE { fe_q : vec; fe_frequencies : list R }.
Definition qfile := list fentry.

(** numpy arithmetic of two arrays along one axis: equal lengths, or one of them of length one, which is repeated; otherwise ValueError *)
Fixpoint map2 {A B D} (f : A -> B -> option D) (a : list A) (b : list B) : option (list D) :=
  match a, b with
  | [], [] => Some []
  | x :: a, y :: b => match f x y, map2 f a b with Some z, Some r => Some (z :: r) | _, _ => None end
  | _, _ => None
  end.
Definition broadcast {A B D} (f : A -> B -> option D) (a : list A) (b : list B) : option (list D) :=
  match a, b with
  | [x], _ => map2 f (repeat x (List.length b)) b
  | _, [y] => map2 f a (repeat y (List.length a))
  | _, _ => map2 f a b
  end.
(** np.array(rows): the rows must have one length (an array of objects in old numpy, which the later swapaxes refuses) *)
Definition rectangular {A} (rows : list (list A)) : bool := forallb (fun r => Nat.eqb (List.length r) (List.length (hd [] rows))) rows.
Definition np_array {A} (rows : list (list A)) : option (list (list A)) := if rectangular rows then Some rows else None.
Definition minus_row (a b : list R) : option (list R) := broadcast (fun x y => Some (x - y)) a b.
Definition minus_array (a b : list (list R)) : option (list (list R)) :=
  match np_array a, np_array b with Some a, Some b => broadcast minus_row a b | _, _ => None end.
Definition plus_row (a b : list R) : option (list R) := broadcast (fun x y => Some (x + y)) a b.
Definition plus_array (a b : list (list R)) : option (list (list R)) :=
  match np_array a, np_array b with Some a, Some b => broadcast plus_row a b | _, _ => None end.
(** the matrices stacked by np.array(shift_matrix): one shape *)
Definition same_shape (m m' : list (list R)) : bool := Nat.eqb (List.length m) (List.length m') && Nat.eqb (List.length (hd [] m)) (List.length (hd [] m')).
Definition stack (l : list (list (list R))) : option (list (list (list R))) := if forallb (same_shape (hd [] l)) l then Some l else None.
(** [x[b][q]] after swapaxes(0, 2): the list over the files *)
Definition series (m : list (list (list R))) (q b : nat) : list R := map (fun file => nth b (nth q file []) 0) m.

Section Files.
Context (harmonic : vec -> list R)                               (* obtain_eigenvectors_and_frequencies(structure, q): the frequencies *)
        (polyfit : list R -> list R -> nat -> R -> R)            (* np.poly1d(np.polyfit(x, y, order))(x') *)
        (interp : list (R * R) -> R -> option R).                (* interp1d(x, y, kind='quadratic')(x') *)
Record inputs := MkI { i_files_t : list qfile; i_files_v : list qfile; i_temperatures : list R; i_volumes : list R;
                       i_reference : option R; i_order : nat; i_tmin : option R }.
(** scripts/qha_quasiparticle.py:217-237 get_harmonic_frequencies_and_eigenvectors: the wave vectors are those of the first temperature file *)
Definition get_harmonic_frequencies (i : inputs) : option (list (list R)) := option_map (map (fun e => harmonic (fe_q e))) (nth_error (i_files_t i) 0).
(** the loops of 109-118 and 132-142: [for i, t in enumerate(list)]: file i, its frequencies minus the reference *)
Fixpoint shift_loop {A} (k : nat) (labels : list A) (files : list qfile) (reference : list (list R)) : option (list (list (list R))) :=
  match labels with
  | [] => Some []
  | _ :: labels => match nth_error files k with
      | Some data => match minus_array (map fe_frequencies data) reference, shift_loop (S k) labels files reference with
          | Some m, Some r => Some (m :: r)
          | _, _ => None
          end
      | None => None                                             (* IndexError *)
      end
  end.
(** scripts/qha_quasiparticle.py:103-122 get_shift_matrix_temperature *)
Definition get_shift_matrix_temperature (i : inputs) : option (list (list (list R))) :=
  match get_harmonic_frequencies i with
  | Some h => match shift_loop 0 (i_temperatures i) (i_files_t i) h with Some l => stack l | None => None end
  | None => None
  end.
(** scripts/qha_quasiparticle.py:157-180 get_fitted_shifts_temperature: rows are wave vectors after the final .T; np.poly1d(p)(None): TypeError *)
Definition shape (m : list (list (list R))) : nat * nat := (List.length (hd [] m), List.length (hd [] (hd [] m))).
Fixpoint sequence {A} (l : list (option A)) : option (list A) :=
  match l with [] => Some [] | Some x :: l => option_map (cons x) (sequence l) | None :: _ => None end.
Definition evaluate (m : list (list (list R))) (f : list R -> option R) : option (list (list R)) :=
  sequence (map (fun q => sequence (map (fun b => f (series m q b)) (seq 0 (snd (shape m))))) (seq 0 (fst (shape m)))).
Definition get_fitted_shifts_temperature (i : inputs) (temperature : option R) : option (list (list R)) :=
  match get_shift_matrix_temperature i with
  | Some m => evaluate m (fun r => option_map (polyfit (i_temperatures i) r (i_order i)) temperature)
  | None => None
  end.
(** scripts/qha_quasiparticle.py:124-146 get_shift_matrix_volume *)
Definition get_shift_matrix_volume (i : inputs) : option (list (list (list R))) :=
  match get_harmonic_frequencies i, get_fitted_shifts_temperature i (i_reference i) with
  | Some h, Some s => match plus_array s h with
      | Some ref => match shift_loop 0 (i_volumes i) (i_files_v i) ref with Some l => stack l | None => None end
      | None => None
      end
  | _, _ => None
  end.
(** scripts/qha_quasiparticle.py:182-190 get_interpolated_shifts_volume *)
Definition get_interpolated_shifts_volume (i : inputs) (volume : R) : option (list (list R)) :=
  match get_shift_matrix_volume i with Some m => evaluate m (fun r => interp (combine (i_volumes i) r) volume) | None => None end.
(** scripts/qha_quasiparticle.py:253-268 get_total_shifts with default options, and 270-277: the table of frequencies behind get_total_force_constants *)
Definition get_total_frequencies (i : inputs) (temperature volume : R) : option (list (list R)) :=
  match get_fitted_shifts_temperature i (Some temperature), get_interpolated_shifts_volume i volume, get_harmonic_frequencies i with
  | Some t, Some v, Some h => match plus_array t v with Some s => plus_array h s | None => None end
  | _, _, _ => None
  end.
(** scripts/qha_quasiparticle.py:95-100 get_temperature_range, as in QhaModel (tmax is never given: 532-541) *)
Definition range_of (i : inputs) : list R :=
  get_temperature_range (MkF (fun _ _ => 0) (i_temperatures i) [] (i_volumes i) [] 0 (i_order i) (i_tmin i) None).
(** scripts/qha_quasiparticle.py:544-573: the table handed to PhonopyQHA (before the transposition), one row per volume, and t_max = range[-1] (IndexError when the range is empty) *)
Context {P : Type} (thermal : list (list R) -> R -> P).
Definition run (i : inputs) : option (list (list P) * R) :=
  match sequence (map (fun v => sequence (map (fun t => option_map (fun f => thermal f t) (get_total_frequencies i t v)) (range_of i))) (i_volumes i)), rev (range_of i) with
  | Some table, t_max :: _ => Some (table, t_max)
  | _, _ => None
  end.
End Files.
