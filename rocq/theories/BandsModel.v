(** Model of Quasiparticle.get_renormalized_phonon_dispersion_bands (dynaphopy/__init__.py:396-531) and of the tick labels of the dispersion
    plots (dynaphopy/__init__.py:227-244, 285-305, 352-372).  Arrays are functions of their indices; numbers are exact.
    What phonopy returns (obtain_phonon_dispersion_bands) and the renormalized force constants are kernels. *)
From Verif Require Export ProjectionModel.
From Coq Require Export String.
Export ListNotations.
Open Scope R_scope.

(** one stretch q_start -> q_end of the path: bands_dict['distances'][i], ['frequencies'][i] (point, branch) and ['eigenvectors'][i]
    (point, component, branch) *)
Record segment := MkS { npoints : nat; distance : nat -> R; freq : nat -> nat -> R; evec : nat -> nat -> nat -> C }.
Definition set_freq (s : segment) (f : nat -> nat -> R) : segment := MkS (npoints s) (distance s) f (evec s).

Section Order.
Context (m : nat).     (* number of branches = number of components *)
(** np.argmax of a row: the first position of the largest value *)
Fixpoint argmax_from (f : nat -> R) (k best : nat) (l : nat) : nat :=
  match l with O => best | S l => argmax_from f (S k) (if Rlt_dec (f best) (f k) then k else best) l end.
Definition argmax (f : nat -> R) : nat := argmax_from f 1 0 (m - 1).
(** np.abs(np.dot(ref.conjugate().T, ev))[i, j] *)
Definition overlap (ref ev : nat -> nat -> C) (i j : nat) : R := Cmod (csum m (fun c => Cmult (Cconj (ref c i)) (ev c j))).
(** x.T[order].T: column b becomes column order[b] *)
Definition take_freq (order : nat -> nat) (f : nat -> nat -> R) : nat -> nat -> R := fun q b => f q (order b).
Definition take_evec (order : nat -> nat) (e : nat -> nat -> nat -> C) : nat -> nat -> nat -> C := fun q c b => e q c (order b).
(** dynaphopy/__init__.py:401-409 reconnect_eigenvectors: every stretch after the first is reordered with the overlaps between the last
    point of the (already reordered) previous stretch and its own first point *)
Definition joint_order (prev s : segment) : nat -> nat := fun i => argmax (overlap (evec prev (npoints prev - 1)) (evec s 0) i).
Definition reorder (order : nat -> nat) (s : segment) : segment := MkS (npoints s) (distance s) (take_freq order (freq s)) (take_evec order (evec s)).
Fixpoint reconnect_from (prev : segment) (l : list segment) : list segment :=
  match l with [] => [] | s :: l => let s' := reorder (joint_order prev s) s in s' :: reconnect_from s' l end.
Definition reconnect_eigenvectors (l : list segment) : list segment := match l with [] => [] | s :: l => s :: reconnect_from s l end.
(** dynaphopy/__init__.py:426-431 eigenvector_order: overlaps summed over the points common to the two stretches (zip) *)
Fixpoint sum_upto (n : nat) (f : nat -> R) : R := match n with O => 0 | S n => sum_upto n f + f n end.
Definition metric (ref ev : segment) (i j : nat) : R := sum_upto (Nat.min (npoints ref) (npoints ev)) (fun q => overlap (evec ref q) (evec ev q) i j).
Definition eigenvector_order (ref ev : segment) : nat -> nat := fun i => argmax (metric ref ev i).
(** dynaphopy/__init__.py:433-441 set_order: only the frequencies are reordered.  Both lists come from the same path, so zip keeps all *)
Fixpoint set_order (bands renormalized : list segment) : list segment :=
  match bands, renormalized with
  | b :: bands, r :: renormalized => set_freq r (take_freq (eigenvector_order b r) (freq r)) :: set_order bands renormalized
  | _, r => r
  end.

End Order.

(** dynaphopy/__init__.py:504-529: one entry of the returned list; the branches are functions (branch, point).  None: key absent *)
Record band_data (point : Type) := MkB {
  q_path_distances : nat -> R; q_inf : point; q_sup : point;
  harmonic_frequencies : nat -> nat -> R; renormalized_frequencies : nat -> nat -> R; frequency_shifts : nat -> nat -> R;
  linewidth_minus : option (nat -> nat -> R); linewidth_plus : option (nat -> nat -> R); linewidth : option (nat -> nat -> R);
  labels_of : option (string * string) }.
Arguments MkB {point}. Arguments q_path_distances {point}. Arguments q_inf {point}. Arguments q_sup {point}. Arguments harmonic_frequencies {point}.
Arguments renormalized_frequencies {point}. Arguments frequency_shifts {point}. Arguments linewidth_minus {point}. Arguments linewidth_plus {point}.
Arguments linewidth {point}. Arguments labels_of {point}.

Section Bands.
Context (m : nat) {point FC : Type}.
Context (dispersion : option FC -> bool -> list segment)  (* obtain_phonon_dispersion_bands(band_ranges, force_constants, band_connection) *)
        (renormalized_fc : (nat -> nat -> R) -> FC)       (* pho_interface.get_renormalized_force_constants, as a function of the frequencies
                                                             (commensurate point, branch): the other arguments are the same in the three calls *)
        (frequencies linewidths : nat -> nat -> R)        (* get_commensurate_points_data() *)
        (ranges : list (point * point)) (labels : option (list (string * string))).
Definition transposed (f : nat -> nat -> R) : nat -> nat -> R := fun b q => f q b.
Definition minus (f g : nat -> nat -> R) : nat -> nat -> R := fun i j => f i j - g i j.
(** l[i] for every i of range(n); None: IndexError *)
Fixpoint collect {A} (f : nat -> option A) (l : list nat) : option (list A) :=
  match l with [] => Some [] | i :: l => match f i, collect f l with Some x, Some r => Some (x :: r) | _, _ => None end end.
(** dynaphopy/__init__.py:443-531; None: IndexError.  get_renormalized_force_constants() (443, cached) is built from the same data as
    lines 466-470 with the frequencies themselves (dynaphopy/__init__.py:1191-1205) *)
Definition get_renormalized_phonon_dispersion_bands (with_linewidths interconnect_bands band_connection : bool) : option (list (band_data point)) :=
  let bands := dispersion None band_connection in
  let bands := if interconnect_bands then reconnect_eigenvectors m bands else bands in
  let ordered b := if band_connection then set_order m bands b else b in
  let renormalized := ordered (dispersion (Some (renormalized_fc frequencies)) band_connection) in
  let sup := ordered (dispersion (Some (renormalized_fc (fun i j => frequencies i j + linewidths i j / 2))) band_connection) in
  let inf := ordered (dispersion (Some (renormalized_fc (fun i j => frequencies i j - linewidths i j / 2))) band_connection) in
  collect (fun i =>
    match nth_error bands i, nth_error renormalized i, nth_error sup i, nth_error inf i, nth_error ranges i,
          match labels with Some l => match nth_error l i with Some x => Some (Some x) | None => None end | None => Some None end with
    | Some b, Some r, Some s, Some f, Some range, Some lab =>
        let lw (x : nat -> nat -> R) := if with_linewidths then Some x else None in
        Some (MkB (distance b) (fst range) (snd range) (transposed (freq b)) (transposed (freq r)) (minus (transposed (freq r)) (transposed (freq b)))
            (lw (transposed (freq f))) (lw (transposed (freq s))) (lw (minus (transposed (freq s)) (transposed (freq f)))) lab)
    | _, _, _, _, _, _ => None
    end) (seq 0 (List.length bands)).
End Bands.

(** dynaphopy/__init__.py:227-244, 285-305 and 352-372: the tick labels; labels[i-1] with i = 0 is the last one, and the first label is then
    overwritten.  [show] is replace_list (the LaTeX spelling of a label).  None: no path (IndexError). *)
Definition tick_labels (show : string -> string) (labels : list (string * string)) : option (list string) :=
  match labels with
  | [] => None
  | first :: _ =>
    let at_ i := nth i labels first in
    let prev i := match i with O => at_ (List.length labels - 1)%nat | S i => at_ i end in
    let l := map (fun i => if String.eqb (fst (at_ i)) (snd (prev i)) then show (fst (at_ i))
                           else append (show (snd (prev i))) (append "/" (show (fst (at_ i))))) (seq 0 (List.length labels))
             ++ [show (snd (at_ (List.length labels - 1)%nat))] in
    Some (match l with _ :: l => show (fst first) :: l | [] => [] end)
  end.
(** the abscissae of the ticks: the first point of every stretch and the last point of the last one *)
Definition tick_positions (l : list segment) : option (list R) :=
  match l with [] => None | first :: _ => let z := last l first in Some (map (fun s => distance s 0) l ++ [distance z (npoints z - 1)]) end.
