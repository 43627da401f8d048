(** Model of the harmonic dispersion cache of Quasiparticle: dynaphopy/__init__.py:75-98, 172-214, 570-577.
    [bands] is phonopy (dynaphopy/interface/phonopy_link.py:301-327); the structure does not change.  Renormalized dispersion data are not cached. *)
From Coq Require Export List String.
Export ListNotations.

Section Bands.
Context {Q L B : Type} (bands : list (Q * Q) -> bool -> B) (seek_path : list (Q * Q) * L).
(** parameters.band_ranges: None, or a dictionary with 'ranges' and possibly 'labels' *)
Record ranges := MkR { r_ranges : list (Q * Q); r_labels : option L }.
Record state := MkS { s_ranges : option ranges; s_nac : bool; s_bands : option B }.
Inductive given := GDict (r : ranges) | GList (l : list (Q * Q)) | GOther.
Inductive call := SetNAC (b : bool) | SetRanges (g : given) | Clear | Plot | Print.
(** what a plot or a print shows *)
Inductive shown := Nothing | Dispersion (b : B) (labels : option L) | Table (b : B).
(** dynaphopy/__init__.py:197-202 *)
Definition get_ranges (s : state) : ranges * state :=
  match s_ranges s with
  | Some r => (r, s)
  | None => let r := MkR (fst seek_path) (Some (snd seek_path)) in (r, MkS (Some r) (s_nac s) (s_bands s))
  end.
(** iterating over a dictionary gives its keys; for q_start, q_end in it: a key of other than two characters raises ValueError *)
Definition keys (r : ranges) : list string := "ranges"%string :: match r_labels r with Some _ => ["labels"%string] | None => [] end.
Definition unpack (l : list string) : option unit := if forallb (fun k => Nat.eqb (String.length k) 2) l then Some tt else None.
Definition step (c : call) (s : state) : option shown * state :=
  match c with
  | SetNAC b => (Some Nothing, MkS (s_ranges s) b None)
  | SetRanges g => let s := MkS (s_ranges s) (s_nac s) None in
      match g with
      | GDict r => (Some Nothing, MkS (Some r) (s_nac s) None)
      | GList l => (Some Nothing, MkS (Some (MkR l None)) (s_nac s) None)
      | GOther => (None, s)
      end
  | Clear => (Some Nothing, MkS (s_ranges s) (s_nac s) None)      (* full_clear, power_spectra_clear, force_constants_clear *)
  | Plot => let (r, s) := get_ranges s in
      let b := match s_bands s with Some b => b | None => bands (r_ranges r) (s_nac s) end in
      (Some (Dispersion b (r_labels r)), MkS (s_ranges s) (s_nac s) (Some b))
  | Print => match s_bands s with
      | Some b => (Some (Table b), s)
      | None => let (r, s) := get_ranges s in
          match unpack (keys r) with Some _ => let b := bands [] (s_nac s) in (Some (Table b), MkS (s_ranges s) (s_nac s) (Some b)) | None => (None, s) end
      end
  end.
(** exceptions may be caught by the caller: the state reached is kept *)
Definition run (l : list call) (s : state) : state := fold_left (fun s c => snd (step c s)) l s.
End Bands.
