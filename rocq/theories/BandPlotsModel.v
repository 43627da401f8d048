(** Model of the figures of the renormalized dispersion relations: Quasiparticle.plot_renormalized_phonon_dispersion_bands
    (dynaphopy/__init__.py:249-307), plot_linewidths_and_shifts_bands (dynaphopy/__init__.py:309-381) and plot_frequencies_vs_linewidths
    (dynaphopy/__init__.py:383-394).  What is drawn is recorded; pixels, fonts and windows are not modelled.  Numbers are exact. *)
From Coq Require Import Reals List String Arith.
From Verif Require Import BandsModel.
Import ListNotations.
Open Scope R_scope.

(** one curve of a figure: the figure it is drawn in, its colour, its label and its points.  matplotlib refuses (ValueError) abscissae and
    ordinates of different lengths: [plot] is then None. *)
Record curve := MkC { c_figure : nat; c_colour : string; c_label : string; c_x : list R; c_y : list R }.
Definition plot (figure : nat) (colour label : string) (x y : list R) : option curve :=
  if Nat.eqb (List.length x) (List.length y) then Some (MkC figure colour label x y) else None.
(** everything or nothing: the first refusal ends the method *)
Fixpoint all_of {A} (l : list (option A)) : option (list A) :=
  match l with [] => Some [] | Some x :: l => match all_of l with Some r => Some (x :: r) | None => None end | None :: _ => None end.

(** one entry of the list returned by get_renormalized_phonon_dispersion_bands, as lists (dynaphopy/__init__.py:504-529): the dictionaries
    {'branch_0': ..., 'branch_1': ...} are the lists of their values in the order of their keys.  None: key absent *)
Record entry := MkEn { e_distances : list R; e_harmonic : list (list R); e_renormalized : list (list R); e_shifts : list (list R);
  e_linewidth : option (list (list R)); e_labels : option (string * string) }.

(** dynaphopy/__init__.py:321-322: np.roll(colors, -j)[0]; element i of np.roll(a, s) is a[(i - s) mod len(a)] *)
Definition roll {A} (d : A) (a : list A) (s : Z) : list A :=
  map (fun i => nth (Z.to_nat ((Z.of_nat i - s) mod Z.of_nat (List.length a))%Z) a d) (seq 0 (List.length a)).
Definition colour_of (colors : list string) (j : nat) : string := nth 0 (roll EmptyString colors (- Z.of_nat j)) EmptyString.

(** dynaphopy/__init__.py:323-341: the four curves of branch j of one stretch; a missing key raises (None) *)
Definition branch_curves (colors : list string) (path : entry) (j : nat) : option (list curve) :=
  let draw figure (branches : list (list R)) :=
    match nth_error branches j with Some branch => plot figure (colour_of colors j) "linewidth" (e_distances path) branch | None => None end in
  match e_linewidth path with
  | Some w => all_of [draw 0%nat w; draw 1%nat (e_harmonic path); draw 2%nat (e_shifts path); draw 3%nat (e_renormalized path)]
  | None => None
  end.
(** dynaphopy/__init__.py:309-341: [data] is the value returned with linewidths; number_of_branches is the number of keys of 'linewidth' in
    the first stretch *)
Definition plot_linewidths_and_shifts_bands (colors : list string) (data : list entry) : option (list curve) :=
  match data with
  | [] => None
  | first :: _ =>
    match e_linewidth first with
    | None => None
    | Some w => option_map (@List.concat curve) (all_of (flat_map (fun path => map (branch_curves colors path) (seq 0 (List.length w))) data))
    end
  end.
(** dynaphopy/__init__.py:344-354: the titles of the four figures *)
Definition titles : list string := ["Phonon linewidths"; "Harmonic phonon dispersion relations"; "Frequency shifts"; "Renormalized phonon dispersion relations"]%string.

(** dynaphopy/__init__.py:280 and 361: plt.xlim([0, data[-1]['q_path_distances'][-1]]); None: IndexError *)
Definition x_limits (data : list entry) : option (R * R) :=
  match rev data with last :: _ => match rev (e_distances last) with x :: _ => Some (0, x) | [] => None end | [] => None end.
(** dynaphopy/__init__.py:291-305 and 364-379: labels are drawn when the first stretch has them; the names come from every stretch (KeyError
    when one has none), the positions are the first abscissa of every stretch and the last of the last one *)
Definition ticks (show : string -> string) (data : list entry) : option (list R * list string) :=
  match all_of (map e_labels data), all_of (map (fun e => nth_error (e_distances e) 0) data), x_limits data with
  | Some labels, Some starts, Some (_, x) => option_map (fun t => (starts ++ [x], t)) (tick_labels show labels)
  | _, _, _ => None
  end.

(** a shaded band between two curves (plt.fill_between) *)
Record ribbon := MkRb { r_x : list R; r_above : list R; r_below : list R }.
Definition ribbon_of (x freq width : list R) : option ribbon :=
  if (Nat.eqb (List.length freq) (List.length width) && Nat.eqb (List.length x) (List.length freq))%bool
  then Some (MkRb x (map (fun p => fst p + snd p / 2) (combine freq width)) (map (fun p => fst p - snd p / 2) (combine freq width))) else None.
(** dynaphopy/__init__.py:254-272, one stretch: the red curves, the blue ones when the harmonic ones are wanted, and the ribbons; plt.plot of a
    transposed table draws one curve per branch, all with the same label *)
Definition stretch_curves (plot_harmonic : bool) (path : entry) : option (list curve) :=
  all_of (map (plot 0 "r" "Renormalized" (e_distances path)) (e_renormalized path) ++
          (if plot_harmonic then map (plot 0 "b" "Harmonic" (e_distances path)) (e_harmonic path) else [])).
Definition stretch_ribbons (plot_linewidths : bool) (path : entry) : option (list ribbon) :=
  if plot_linewidths then
    match e_linewidth path with
    | Some w => all_of (map (fun p => ribbon_of (e_distances path) (fst p) (snd p)) (combine (e_renormalized path) w))
    | None => None
    end
  else Some [].
Definition plot_renormalized_phonon_dispersion_bands (plot_linewidths plot_harmonic : bool) (data : list entry) : option (list curve * list ribbon) :=
  match all_of (map (stretch_curves plot_harmonic) data), all_of (map (stretch_ribbons plot_linewidths) data) with
  | Some c, Some r => Some (List.concat c, List.concat r)
  | _, _ => None
  end.
(** dynaphopy/__init__.py:283-288: the legend gives the name Harmonic to the last labelled curve and Renormalized to the first one; an
    IndexError is caught and there is then no legend *)
Definition legend (curves : list curve) : list (curve * string) :=
  match rev curves, curves with last :: _, first :: _ => [(last, "Harmonic"); (first, "Renormalized")]%string | _, _ => [] end.

(** dynaphopy/__init__.py:392-393: the points of the scatter plot.  frequencies and linewidths have a row per mesh point; they are transposed and
    walked together (zip) *)
Definition transpose (columns : nat) (l : list (list R)) : list (list R) := map (fun b => map (fun row => nth b row 0) l) (seq 0 columns).
Definition columns_of (l : list (list R)) : nat := match l with [] => 0%nat | row :: _ => List.length row end.
Definition plot_frequencies_vs_linewidths (frequencies linewidths : list (list R)) : list (R * R) :=
  flat_map (fun fl => combine (fst fl) (snd fl)) (combine (transpose (columns_of frequencies) frequencies) (transpose (columns_of linewidths) linewidths)).
(** dynaphopy/__init__.py:504-529: the arrays of an entry as lists (.tolist()), for nb branches and np points *)
Definition tolist (nb np : nat) (f : nat -> nat -> R) : list (list R) := map (fun b => map (f b) (seq 0 np)) (seq 0 nb).
Definition entry_of {point} (nb np : nat) (d : band_data point) : entry :=
  MkEn (map (q_path_distances d) (seq 0 np)) (tolist nb np (harmonic_frequencies d)) (tolist nb np (renormalized_frequencies d)) (tolist nb np (frequency_shifts d))
    (option_map (tolist nb np) (linewidth d)) (labels_of d).
