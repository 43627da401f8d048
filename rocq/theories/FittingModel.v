(** Model of dynaphopy/analysis/fitting/__init__.py: degenerate_sets, average_phonon and the assembly
    of phonon_fitting_analysis (exact arithmetic; printing and plotting left out). *)
From Coq Require Export Reals List Arith Bool.
Export ListNotations.
Open Scope R_scope.

Definition Rltb (x y : R) : bool := if Rlt_dec x y then true else false.
(** (np.abs(freqs[f_set] - freqs[j]) < cutoff).any() *)
Definition near (freqs : nat -> R) (cutoff : R) (f_set : list nat) (j : nat) : bool :=
  existsb (fun a => Rltb (Rabs (freqs a - freqs j)) cutoff) f_set.
(** dynaphopy/analysis/fitting/__init__.py:25-28 loop over j; state (f_set, done) *)
Definition join_step (freqs : nat -> R) (cutoff : R) (st : list nat * list nat) (j : nat) : list nat * list nat :=
  let '(f_set, done) := st in if near freqs cutoff f_set j then (f_set ++ [j], done ++ [j]) else (f_set, done).
(** dynaphopy/analysis/fitting/__init__.py:19-29 one iteration of the loop over i; state (indices, done) *)
Definition set_step (freqs : nat -> R) (cutoff : R) (n : nat) (st : list (list nat) * list nat) (i : nat) : list (list nat) * list nat :=
  let '(indices, done) := st in
  if existsb (Nat.eqb i) done then (indices, done)
  else let '(f_set, done) := fold_left (join_step freqs cutoff) (seq (i + 1) (n - (i + 1))) ([i], done ++ [i]) in
       (indices ++ [f_set], done).
(** dynaphopy/analysis/fitting/__init__.py:16-31 degenerate_sets; freqs is an array of length n *)
Definition degenerate_sets (freqs : nat -> R) (cutoff : R) (n : nat) : list (list nat) :=
  fst (fold_left (set_step freqs cutoff n) (seq 0 n) ([], [])).

(** dynaphopy/analysis/fitting/__init__.py:34-37 average_phonon: mean over the first set containing the index (None: no set contains it,
    the function returns None) *)
Definition rsum (l : list R) : R := fold_right Rplus 0 l.
Fixpoint average_phonon (index : nat) (data : nat -> nat -> R) (degeneracy : list (list nat)) (w : nat) : option R :=
  match degeneracy with
  | [] => None
  | s :: l => if existsb (Nat.eqb index) s then Some (rsum (map (data w) s) / INR (length s)) else average_phonon index data l w
  end.

(** result of Fitting_function_class(...).get_fitting() *)
Record fitted := MkFit { peak_position : R; area : R; width : R; maximum : R; global_error : R }.
Record result := MkRes { positions : list R; widths : list R; errors : list R; dt_Q2 : list R }.
(** dynaphopy/analysis/fitting/__init__.py:40-185 phonon_fitting_analysis: get_fitting is any function of the column handed to it; columns
    are functions of the frequency index; shift: thermal_expansion_shift (None for no shift).  An
    index outside thermal_expansion_shift raises (None). *)
Section Analysis.
Context (nw : nat) (get_fitting : (nat -> R) -> option fitted).
Context (original : nat -> nat -> R) (harmonic : nat -> R) (use_degeneracy : bool) (ncol : nat) (cutoff : R).
Definition column (i : nat) : option (nat -> R) :=
  if use_degeneracy then
    let deg := degenerate_sets harmonic cutoff ncol in
    match average_phonon i original deg 0%nat with
    | None => None
    | Some _ => Some (fun w => match average_phonon i original deg w with Some x => x | None => 0 end)
    end
  else Some (fun w => original w i).
Definition append (r : result) (p w e q : R) : result := MkRes (positions r ++ [p]) (widths r ++ [w]) (errors r ++ [e]) (dt_Q2 r ++ [q]).
Definition analyse (shift : option (list R)) (acc : option result) (i : nat) : option result :=
  match acc with
  | None => None
  | Some r =>
    match column i with
    | None => None
    | Some ps =>
      match get_fitting ps with
      | None => Some (append r 0 0 0 0)
      | Some f =>
        match (match shift with None => Some (peak_position f) | Some s => option_map (Rplus (peak_position f)) (nth_error s i) end) with
        | None => None
        | Some position => Some (append r position (width f) (global_error f / maximum f) (2 * area f))
        end
      end
    end
  end.
Definition phonon_fitting_analysis (shift : option (list R)) : option result :=
  fold_left (analyse shift) (seq 0 ncol) (Some (MkRes [] [] [] [])).
End Analysis.
