(** Model of scripts/rfc_calc and of the file written by Quasiparticle.write_quasiparticles_data.
    Not modelled: plotting, the input file reader (InputModel), phonopy.  YAML is modelled as the value it stands for: what is dumped is what is
    loaded, except that floats are written with eight decimals. *)
From Verif Require Export Base Rounding.
From Coq Require Export String Permutation List.
Export ListNotations.
Open Scope R_scope.

Record entry := MkE { wave_vector : vec; frequencies : list R; linewidths : list R; shifts : list R; velocities : option (list vec) }.
(** what yaml.safe_load can return for these files *)
Inductive yaml := YList (l : list entry) | YMap (l : list (string * entry)).
Definition vec_eqb (a b : vec) : bool :=
  if Req_EM_T (vx a) (vx b) then if Req_EM_T (vy a) (vy b) then if Req_EM_T (vz a) (vz b) then true else false else false else false.
(** dynaphopy/interface/iofile/__init__.py:726-728: '{0:.8f}'.format(value), read back *)
Definition dec8 (x : R) : R := IZR (around (x * 100000000)) / 100000000.
Definition dec8v (v : vec) : vec := V3 (dec8 (vx v)) (dec8 (vy v)) (dec8 (vz v)).
Definition written (e : entry) : entry :=
  MkE (dec8v (wave_vector e)) (map dec8 (frequencies e)) (map dec8 (linewidths e)) (map dec8 (shifts e)) (option_map (map dec8v) (velocities e)).

(** the dictionary of get_commensurate_points_data (__init__.py:1190-1195), restricted to what the file shows; [d_velocity] once update() added it *)
Record data := MkD { d_q : list vec; d_freq : list (list R); d_width : list (list R); d_shift : list (list R); d_supercell : mat; d_velocity : option (list (list vec)) }.
(** dynaphopy/interface/iofile/__init__.py:722-748 save_quasiparticle_data_to_file; [None]: IndexError *)
Definition entry_at (d : data) (i : nat) (q : vec) : option entry :=
  match nth_error (d_freq d) i, nth_error (d_width d) i, nth_error (d_shift d) i, match d_velocity d with None => Some None | Some v => option_map Some (nth_error v i) end with
  | Some f, Some w, Some s, Some v => Some (MkE q f w s v)
  | _, _, _, _ => None
  end.
Fixpoint entries_from (d : data) (i : nat) (qs : list vec) : option (list entry) :=
  match qs with
  | [] => Some []
  | q :: qs => match entry_at d i q, entries_from d (S i) qs with Some e, Some l => Some (e :: l) | _, _ => None end
  end.
Definition save_quasiparticle_data (d : data) : option yaml := option_map (fun l => YList (map written l)) (entries_from d 0 (d_q d)).

Section Properties.
Context (points : mat -> list vec) (compute : mat -> data) (velocity : vec -> list vec).
(** The object: the cached dictionary (shared by reference between the getter and write_quasiparticles_data) and the supercell that
    use_MD_cell_commensurate selects (__init__.py:1109-1114, 1213-1220), which is a plain parameter: changing it clears nothing *)
Record qobj := MkQ { q_cache : option data; q_cell : mat }.
(** __init__.py:1100-1195 *)
Definition get_data (o : qobj) : data * qobj := match q_cache o with Some d => (d, o) | None => let d := compute (q_cell o) in (d, MkQ (Some d) (q_cell o)) end.
(** __init__.py:1213-1237: group velocities come from the renormalized force constants, fixed here inside [velocity] *)
Definition properties (o : qobj) : list (list vec) * list vec * mat := (map velocity (points (q_cell o)), points (q_cell o), q_cell o).
(** __init__.py:1243-1247 write_quasiparticles_data: dict.update changes the cached dictionary *)
Definition write_data (with_extra : bool) (o : qobj) : option yaml * qobj :=
  let (d, o) := get_data o in
  if with_extra then
    let '(v, q, c) := properties o in
    let d := MkD q (d_freq d) (d_width d) (d_shift d) c (Some v) in (save_quasiparticle_data d, MkQ (Some d) (q_cell o))
  else (save_quasiparticle_data d, o).
Definition set_cell (c : mat) (o : qobj) : qobj := MkQ (q_cache o) c.
End Properties.

Section Rfc.
Context {E FC : Type} (points : mat -> list vec) (eigenvectors : vec -> E) (force_constants : list (list R) -> list E -> mat -> bool -> FC).
(** scripts/rfc_calc:54-66: data_dict.values() (a list has no values(): [None], AttributeError), for each point every matching entry *)
Definition read_frequencies (file : yaml) (com_points : list vec) : option (list (list R)) :=
  match file with
  | YList _ => None
  | YMap m => Some (concat (map (fun wv => map (fun kv => frequencies (snd kv)) (filter (fun kv => vec_eqb (wave_vector (snd kv)) wv) m)) com_points))
  end.
(** scripts/rfc_calc:43-49: the supercell used; [dim] from --dim, [input] = supercell_phonon of the input file, [own] = structure.get_supercell_phonon() *)
Definition rfc_supercell (dim : option (nat * nat * nat)) (input : option mat) (own : mat) : option mat :=
  match dim with None => input | Some _ => Some own end.
Definition get_renormalized_constants (dim : option (nat * nat * nat)) (input : option mat) (own : mat) (file : yaml) (symmetrize : bool) : option FC :=
  match rfc_supercell dim input own with
  | None => None
  | Some c => match read_frequencies file (points c) with Some f => Some (force_constants f (map eigenvectors (points c)) c symmetrize) | None => None end
  end.
(** scripts/rfc_calc:128-142: -cp *)
Definition diag3 (d : nat * nat * nat) : mat := let '(a, b, c) := d in M3 (V3 (INR a) 0 0) (V3 0 (INR b) 0) (V3 0 0 (INR c)).
Definition print_points (dim : option (nat * nat * nat)) (input : option mat) : list vec :=
  points (match dim with None => match input with Some m => m | None => diag3 (1, 1, 1)%nat end | Some d => diag3 d end).
End Rfc.
