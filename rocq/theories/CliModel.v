(** Model of the command line program scripts/dynaphopy from the creation of the Quasiparticle object to its end (288-420): the order of the
    settings and of the requested outputs.  Built on the Quasiparticle model.  Not modelled: what precedes (input file, trajectory reading:
    InputModel, ParsersModel), interactive mode, and the requests that only read the trajectory (--save_data, atomic displacements, --adp,
    --average: Hdf5Model, HistogramModel, DisplacementsModel), which touch neither settings nor caches. *)
From Verif Require Export QuasiModel.
Open Scope Z_scope.

Section Cli.
Context (K : kernels).
(** scripts/dynaphopy:20-200: the arguments used below.  Options taking a value are [option]; the others are flags. *)
Record args := MkArgs {
  a_n : Z;                              (* -n, 0 when absent *)
  a_fit : Z; a_temp : option R; a_qha : option (FC K); a_proj : option Z; a_res : option R; a_q : option qvec; a_alg : option Z;
  a_ncoef : option Z; a_range : option (R * R);
  a_save_vc_hdf5 : bool; a_save_vq : bool; a_save_vc : bool;
  a_save_fc : bool; a_save_bands : bool; a_save_full : bool; a_save_wave : bool; a_save_phonon : bool;
  a_plot_full : bool; a_plot_wave : bool; a_plot_phonon : bool; a_save_data : bool; a_save_mesh : bool; a_scan : bool; a_peak : bool;
  a_thm : bool; a_thm_full : bool; a_thm_reference : bool; a_partials : bool }.
(** one statement of the script: a setter, the direct attribute assignment of line 331, the value of a getter used in an output, the
    frequency range used in an output *)
Inductive step := Config (c : call K) | Ncoef (n : Z) | Out (c : call K) | OutRange.
Inductive emission := Ev (c : call K) (v : value K) | Er (r : FR K).
(** the statements in order; an exit()/exception ends the program.  The flag says whether the end was reached. *)
Fixpoint exec (l : list step) (s : state K) : list emission * bool :=
  match l with
  | [] => ([], true)
  | Config c :: l => match do_call K c s with (Some _, s') => exec l s' | (None, _) => ([], false) end
  | Ncoef n :: l => exec l (MkS K (with_ncoef K n (par K s)) (ob K s))
  | Out c :: l => match do_call K c s with (Some v, s') => let '(r, b) := exec l s' in (Ev c v :: r, b) | (None, _) => ([], false) end
  | OutRange :: l => let '(r, b) := exec l s in (Er (p_range K (par K s)) :: r, b)
  end.
Definition opt {A} (o : option A) (f : A -> step) : list step := match o with Some a => [f a] | None => [] end.
Definition flag (b : bool) (l : list step) : list step := if b then l else [].
(** scripts/dynaphopy:306-331: set parameters (silent, symmetry, NAC, ... assigned before anything is computed are part of the initial settings) *)
Definition settings_steps (a : args) : list step :=
  [Config (SelFit K (a_fit a))] ++ opt (a_temp a) (fun t => Config (SetTemp K t)) ++ opt (a_qha a) (fun f => Config (SetQha K f)) ++
  opt (a_proj a) (fun x => Config (SetProj K x)) ++ opt (a_res a) (fun r => Config (SetResolution K r)) ++ opt (a_q a) (fun q => Config (SetQ K q)) ++
  opt (a_alg a) (fun x => Config (SelAlg K x)) ++ opt (a_ncoef a) Ncoef.
(** dynaphopy/__init__.py:1035-1053 write_power_spectrum_full / wave_vector / phonon; 875-940 the plots (the harmonic DoS drawn beside is not followed) *)
Definition write_full : list step := [OutRange; Out (GetFull K (-1)); Out (GetFull K (-1)); OutRange].
Definition write_wave : list step := [OutRange; Out (GetWave K); Out (GetWave K); OutRange].
Definition write_phonon : list step := [OutRange; Out (GetPhonon K)].
(** dynaphopy/__init__.py:861-873 phonon_individual_analysis (the QHA shift only reads the frequencies again) *)
Definition peak_steps : list step := [Out (GetPhonon K); OutRange; Out (GetFreq K)].
(** dynaphopy/__init__.py:1302-1382 display_thermal_properties with 1253-1300 get_thermal_properties (temperature, frequency range for the DoS); silent mode *)
Definition thm_steps (full reference : bool) : list step :=
  [Out (GetTemp K)] ++ flag reference [Out (GetRFC K)] ++ [Out (GetTemp K); OutRange; Out (GetRFC K); Out (GetTemp K); OutRange; OutRange] ++
  flag full [Out (GetFull K (-1))].
(** scripts/dynaphopy:334-343: outputs before the frequency range is set *)
Definition early_steps (a : args) : list step :=
  flag (a_save_vc_hdf5 a) [Out (GetVc K)] ++ flag (a_save_vq a) [Out (GetVq K)] ++ flag (a_save_vc a) [Out (GetVc K)].
(** 351-402; write_renormalized_phonon_dispersion_bands needs the force constants and the commensurate data *)
Definition main_steps (a : args) : list step :=
  flag (a_save_fc a) [Out (GetRFC K)] ++ flag (a_save_bands a) [Out (GetRFC K); Out (GetCom K true)] ++ flag (a_save_full a) write_full ++
  flag (a_save_wave a) write_wave ++ flag (a_save_phonon a) write_phonon ++ flag (a_plot_full a) write_full ++ flag (a_plot_wave a) write_wave ++
  flag (a_plot_phonon a) write_phonon ++ flag (a_save_data a) [Out (GetCom K true)] ++ flag (a_save_mesh a) [Out (GetCom K true)] ++
  flag (a_scan a) [Out (GetVq K)] ++ flag (a_peak a) peak_steps ++
  flag (a_thm a) (thm_steps false (a_thm_reference a)) ++ flag (a_thm_full a) (thm_steps true (a_thm_reference a)).
(** scripts/dynaphopy:295 Quasiparticle(trajectory, last_steps=args.n), then everything in order; 347 set_frequency_limits; 406-407 partials last *)
Definition script (a : args) : list step :=
  [Config (Crop K (Some (a_n a)))] ++ settings_steps a ++ early_steps a ++ opt (a_range a) (fun r => Config (SetLimits K (fst r) (snd r))) ++
  main_steps a ++ flag (a_partials a) [Out (GetPartials K)].
Definition program (a : args) (p : params K) (d : D K) : list emission * bool := exec (script a) (MkS K p (new_obj K d None)).
End Cli.
