(** What the user of the command line asked for. *)
From Verif Require Export CliModel QuasiSpec.
Open Scope Z_scope.

Section Spec.
Context (K : kernels).
Definition given {A} (o : option A) (default : A) : A := match o with Some a => a | None => default end.
(** settings asked for: the options where given, otherwise those in force before *)
Definition resolution (a : args K) (p : params K) : R := given (a_res K a) (p_res K p).
Definition range_asked (a : args K) (p : params K) : FR K :=
  match a_range K a, a_res K a with
  | Some (lo, hi), _ => limits_range K lo hi (resolution a p)
  | None, Some r => respan K (p_range K p) r
  | None, None => p_range K p
  end.
Definition asked (a : args K) (p : params K) : params K :=
  MkP K (given (a_q K a) (p_q K p)) (given (a_alg K a) (p_alg K p)) (given (a_ncoef K a) (p_ncoef K p)) (range_asked a p) (resolution a p)
    (given (a_proj K a) (p_proj K p)) (p_sym K p) (p_nac K p) (a_fit K a) (p_silent K p) (p_symmetrize K p) (p_other K p).
(** the selections exist *)
Definition valid (a : args K) (d : D K) : Prop :=
  0 <= a_fit K a <= 2 /\ (forall x, a_alg K a = Some x -> 0 <= x <= 5) /\ (forall x, a_proj K a = Some x -> 0 <= x < primitive_atoms K d) /\
  (forall q, a_q K a = Some q -> length q = 3%nat).
(** the temperature asked for, or the one of the velocity distribution *)
Definition temperature_asked (a : args K) (d : D K) : R :=
  let measured := (maxwell_scale K d ^ 2 / (831446 / 1000000))%R in
  match a_temp K a with Some t => if Req_EM_T t 0 then measured else t | None => measured end.
(** the value of a quantity at given settings, trajectory, QHA reference *)
Definition value_at (a : args K) (d : D K) (p : params K) (c : call K) : option (value K) :=
  match c with
  | GetFreq _ => Some (VF K (snd (fresh_eig K d p)))
  | GetVc _ => Some (VVc K (fresh_vc K d p))
  | GetVq _ => Some (VVq K (fresh_vq K d p))
  | GetPhonon _ => option_map (VPS K) (fresh_phonon K d p)
  | GetWave _ => option_map (VPS K) (fresh_wave K d p)
  | GetFull _ c => option_map (VPS K) (fresh_full K d p c)
  | GetPartials _ => option_map (VPS K) (fresh_partials K d p)
  | GetTemp _ => Some (VT K (temperature_asked a d))
  | GetCom _ _ => option_map (VCom K) (fresh_com K d (a_qha K a) p)
  | GetRFC _ => option_map (VFC K) (fresh_rfc K d (a_qha K a) p)
  | _ => None
  end.
(** the quantities behind each request *)
Definition wants (a : args K) (c : call K) : Prop :=
  match c with
  | GetVc _ => a_save_vc_hdf5 K a = true \/ a_save_vc K a = true
  | GetVq _ => a_save_vq K a = true \/ a_scan K a = true
  | GetFull _ k => k = -1 /\ (a_save_full K a = true \/ a_plot_full K a = true \/ a_thm_full K a = true)
  | GetWave _ => a_save_wave K a = true \/ a_plot_wave K a = true
  | GetPhonon _ => a_save_phonon K a = true \/ a_plot_phonon K a = true \/ a_peak K a = true
  | GetFreq _ => a_peak K a = true
  | GetPartials _ => a_partials K a = true
  | GetTemp _ => a_thm K a = true \/ a_thm_full K a = true
  | GetRFC _ => a_save_fc K a = true \/ a_save_bands K a = true \/ a_thm K a = true \/ a_thm_full K a = true
  | GetCom _ b => b = true /\ (a_save_bands K a = true \/ a_save_data K a = true \/ a_save_mesh K a = true)
  | _ => False
  end.
(** no request needs the renormalized force constants or the commensurate point data *)
Definition spectra_only (a : args K) : Prop :=
  a_save_fc K a = false /\ a_save_bands K a = false /\ a_save_data K a = false /\ a_save_mesh K a = false /\ a_thm K a = false /\ a_thm_full K a = false.
End Spec.
