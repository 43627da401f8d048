(** The values a user expects: computed from the current settings and trajectory, no caches. *)
From Verif Require Export QuasiModel.
Open Scope Z_scope.

Section Spec.
Context (K : kernels).
Notation params := (params K). Notation com_data := (com_data K).

Fixpoint all_some {A} (l : list (option A)) : option (list A) :=
  match l with [] => Some [] | Some a :: l => option_map (cons a) (all_some l) | None :: _ => None end.

Definition fresh_eig (d : D K) (p : params) := eig K d (p_q K p).
Definition fresh_vc (d : D K) (p : params) := project K d (p_q K p) (p_proj K p).
Definition fresh_vq (d : D K) (p : params) := modes K (fresh_vc d p) (fst (fresh_eig d p)).
(** spectrum of the mode-projected velocity at wave vector q *)
Definition phonon_at (d : D K) (p : params) (q : qvec) : option (PS K) :=
  spectrum_vq K (p_alg K p) (p_ncoef K p) (p_range K p) (p_other K p)
    (modes K (project K d q (p_proj K p)) (fst (eig K d q))) d.
Definition wave_at (d : D K) (p : params) (q : qvec) : option (PS K) :=
  spectrum_vc K (p_alg K p) (p_ncoef K p) (p_range K p) (p_other K p) (project K d q (p_proj K p)) d.
Definition by_symmetry (d : D K) (p : params) (at_q : qvec -> option (PS K)) : option (PS K) :=
  if p_sym K p then option_map (average K) (all_some (map at_q (equivalent K d (p_q K p)))) else at_q (p_q K p).
Definition fresh_phonon d p := by_symmetry d p (phonon_at d p).
Definition fresh_wave d p := by_symmetry d p (wave_at d p).
Definition fresh_full d (p : params) coord := spectrum_full K (p_alg K p) (p_ncoef K p) (p_range K p) (p_other K p) (p_proj K p) coord d.
Definition fresh_partials d (p : params) := spectrum_partials K (p_alg K p) (p_ncoef K p) (p_range K p) (p_other K p) d.

(** commensurate point data: every point analysed with the current settings, equivalent points
    sharing the row of the earlier equivalent point when symmetry is on *)
Definition fit_row (d : D K) (qha : option (FC K)) (p : params) (q : qvec) : option com_row :=
  match fresh_phonon d (with_q K q p) with
  | None => None
  | Some ps =>
    let f := snd (eig K d q) in
    let shift := option_map (fun fc => vminus (qha_frequencies K d fc q) f) qha in
    let pw := fit K ps (p_range K p) f shift (p_fit K p) (p_sym K p) in
    let fix_gamma l := if qvec_eq_dec q gamma then zero3 l else Some l in
    match fix_gamma (fst pw), fix_gamma (snd pw) with
    | Some pos, Some wid => Some (MkRow pos wid (vminus pos f))
    | _, _ => None
    end
  end.
Definition fresh_com_step d qha (p : params) (acc : com_data) (q : qvec) : option com_data :=
  let i := vector_in_list (equivalent K d q) (c_q K acc) in
  option_map (fun row => MkCom K (c_rows K acc ++ [row]) (c_eig K acc ++ [fst (eig K d q)]) (c_q K acc ++ [q]))
   (if negb (i =? 0)%nat && p_sym K p then nth_error (c_rows K acc) i else fit_row d qha p q).
Fixpoint fresh_com_from d qha (p : params) (l : list qvec) (acc : com_data) : option com_data :=
  match l with [] => Some acc | q :: l => match fresh_com_step d qha p acc q with Some a => fresh_com_from d qha p l a | None => None end end.
Definition fresh_com d qha (p : params) : option com_data :=
  fresh_com_from d qha p (com_points K d (p_other K p)) (MkCom K [] [] []).
Definition fresh_rfc d qha (p : params) : option (FC K) :=
  option_map (fun c => renormalize K (map r_freq (c_rows K c)) (c_eig K c) d (p_other K p) (p_symmetrize K p)) (fresh_com d qha p).
(** Independent description of one row of the commensurate data, used to read [fresh_com]: the row obtained by
    fitting the spectrum at q itself (acoustic frequencies and widths zero at Gamma, shift = fitted - harmonic) ... *)
Definition difference (a b : list R) : list R := map (fun p => fst p - snd p)%R (combine a b).
Definition own_fit (d : D K) (qha : option (FC K)) (p : params) (q : qvec) (row : com_row) : Prop :=
  exists ps, fresh_phonon d (with_q K q p) = Some ps /\
  let harmonic := snd (eig K d q) in
  let fitted := fit K ps (p_range K p) harmonic (option_map (fun fc => difference (qha_frequencies K d fc q) harmonic) qha) (p_fit K p) (p_sym K p) in
  (q <> [0; 0; 0]%R -> r_freq row = fst fitted /\ r_width row = snd fitted) /\
  (q = [0; 0; 0]%R -> r_freq row = ([0; 0; 0]%R ++ skipn 3 (fst fitted)) /\ r_width row = ([0; 0; 0]%R ++ skipn 3 (snd fitted))) /\
  r_shift row = difference (r_freq row) harmonic.
(** ... or the row of an earlier point which is equivalent by symmetry.  (The first point is never reused.) *)
Definition reused (d : D K) (p : params) (data : com_data) (i : nat) (row : com_row) : Prop :=
  p_sym K p = true /\ exists j q, (0 < j < i)%nat /\ nth_error (c_q K data) j = Some q /\ 
    (exists q', nth_error (c_q K data) i = Some q' /\ In q (equivalent K d q')) /\ nth_error (c_rows K data) j = Some row.
(** settings after the automatic choice of the frequency range *)
Definition auto_range (d : D K) (p : params) : params :=
  with_range K (limits_range K 0%R (dos_max K d (p_other K p)) (p_res K p)) p.

(** calls that leave the trajectory, the projected atom and the QHA reference alone, with
    three-component wave vectors and one fixed coordinate for the full spectrum *)
Definition ordinary (coord : Z) (c : call K) : Prop :=
  match c with
  | Crop _ _ | SetProj _ _ | SetQha _ _ => False
  | SetQ _ q => length q = 3%nat
  | GetFull _ c => c = coord
  | _ => True
  end.
(** wave vectors produced by the structure have three components *)
Definition three_d : Prop :=
  (forall d q, length q = 3%nat -> forall q', In q' (equivalent K d q) -> length q' = 3%nat) /\
  (forall d o q, In q (com_points K d o) -> length q = 3%nat).
End Spec.

Section Classes.
Context (K : kernels).
(** calls made before anything is computed *)
Definition setup_call (c : call K) : Prop :=
  match c with
  | GetQ _ | GetEig _ | GetFreq _ | GetVc _ | GetVq _ | GetPhonon _ | GetWave _ | GetFull _ _ | GetPartials _ | GetTemp _ | GetCom _ _ | GetRFC _ => False
  | SetQ _ q => length q = 3%nat
  | _ => True
  end.
(** results that depend on the atom projection *)
Definition spectrum_getter (c : call K) : Prop :=
  match c with GetVc _ | GetVq _ | GetPhonon _ | GetWave _ | GetFull _ _ => True | _ => False end.
(** calls after which existing commensurate data stays *)
Definition ignored_by_data (c : call K) : Prop :=
  match c with Crop _ _ | SetProj _ _ | SetQha _ _ => True | _ => False end.
(** calls that step through other wave vectors *)
Definition visits_wave_vectors (c : call K) : Prop :=
  match c with GetPhonon _ | GetWave _ | GetCom _ _ | GetRFC _ => True | _ => False end.
Definition quiet_getter (c : call K) : Prop :=
  match c with
  | GetQ _ | GetEig _ | GetFreq _ | GetVc _ | GetVq _ | GetPhonon _ | GetWave _ | GetFull _ _ | GetPartials _ | GetTemp _ => True
  | _ => False
  end.
End Classes.
