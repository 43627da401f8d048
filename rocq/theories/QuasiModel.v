(** Model of the Quasiparticle object of dynaphopy/__init__.py: settings, caches, setters, getters.
    The numerical kernels (phonopy, projections, spectra, fits) are uninterpreted functions collected
    in [kernels]; what is modelled is which kernel is called with which arguments, what is cached and
    what is cleared.  [None] as a result is exit()/an exception; the state reached is kept. *)
From Coq Require Export List ZArith Reals Bool.
Export ListNotations.
Open Scope Z_scope.

Definition qvec := list R.
Definition qvec_eq_dec : forall a b : qvec, {a = b} + {a <> b} := list_eq_dec Req_EM_T.

Record kernels := MkK {
  D : Type;                     (* Dynamics object, including its structure *)
  VC : Type; VQ : Type; E : Type; PS : Type; FC : Type; FR : Type;
  fr_eq_dec : forall a b : FR, {a = b} + {a <> b};
  O : Type;                     (* parameters only changed by direct attribute access: correlation step,
                                   integration method, zero padding, use_MD_cell_commensurate, mesh *)
  crop : option Z -> D -> option D;                  (* Dynamics.crop_trajectory *)
  crop_vc : Z -> VC -> VC;                           (* vc[-n:, :, :] *)
  primitive_atoms : D -> Z;                          (* structure.get_number_of_primitive_atoms() *)
  eig : D -> qvec -> E * list R;                     (* obtain_eigenvectors_and_frequencies *)
  project : D -> qvec -> Z -> VC;                    (* project_onto_wave_vector(dynamic, q, project_on_atom) *)
  modes : VC -> E -> VQ;                             (* project_onto_phonon *)
  spectrum_vq : Z -> Z -> FR -> O -> VQ -> D -> option PS;  (* power_spectrum_functions[alg][0], vq *)
  spectrum_vc : Z -> Z -> FR -> O -> VC -> D -> option PS;  (* same on the flattened vc *)
  average : list PS -> PS;
  spectrum_full : Z -> Z -> FR -> O -> Z -> Z -> D -> option PS;  (* projected type, coordinate *)
  spectrum_partials : Z -> Z -> FR -> O -> D -> option PS;
  equivalent : D -> qvec -> list qvec;               (* get_equivalent_q_points_by_symmetry *)
  limits_range : R -> R -> R -> FR;                  (* arange(lo, hi+res, res) *)
  respan : FR -> R -> FR;                            (* arange(range[0], range[-1]+res, res) *)
  com_points : D -> O -> list qvec;                  (* get_commensurate_points(structure, fc_supercell) *)
  dos_max : D -> O -> R;                             (* np.max(phonopy_dos[0][-1]) * 1.2 *)
  qha_frequencies : D -> FC -> qvec -> list R;       (* frequencies with the QHA force constants *)
  fit : PS -> FR -> list R -> option (list R) -> Z -> bool -> list R * list R;  (* phonon_fitting_analysis *)
  renormalize : list (list R) -> list E -> D -> O -> bool -> FC;
  maxwell_scale : D -> R                             (* params[1] of the Maxwell fit *)
}.

Section Model.
Context (K : kernels).

(** dynaphopy/parameters.py: the settings read or written below *)
Record params := MkP {
  p_q : qvec; p_alg : Z; p_ncoef : Z; p_range : FR K; p_res : R; p_proj : Z;
  p_sym : bool; p_nac : bool; p_fit : Z; p_silent : bool; p_symmetrize : bool; p_other : O K }.
(** one row of the commensurate point data: frequencies, linewidths, shifts *)
Record com_row := MkRow { r_freq : list R; r_width : list R; r_shift : list R }.
Record com_data := MkCom { c_rows : list com_row; c_eig : list (E K); c_q : list qvec }.
(** dynaphopy/__init__.py:22-44 attributes of a Quasiparticle (bands caches are only written by plots) *)
Record obj := MkO {
  o_dyn : D K; o_vc : option (VC K); o_ev : option (E K); o_fq : option (list R); o_vq : option (VQ K);
  o_ph : option (PS K); o_wv : option (PS K); o_full : option (PS K); o_part : option (PS K);
  o_rfc : option (FC K); o_com : option com_data; o_temp : option R; o_qha : option (FC K) }.
Record state := MkS { par : params; ob : obj }.

Definition M (A : Type) := state -> option A * state.
Definition ret {A} (a : A) : M A := fun s => (Some a, s).
Definition fail {A} : M A := fun s => (None, s).
Definition bnd {A B} (m : M A) (f : A -> M B) : M B :=
  fun s => match m s with (Some a, s') => f a s' | (None, s') => (None, s') end.
Definition gets {A} (f : state -> A) : M A := fun s => (Some (f s), s).
Definition lift {A} (o : option A) : M A := fun s => (o, s).
Definition modo (f : obj -> obj) : M unit := fun s => (Some tt, MkS (par s) (f (ob s))).
Definition modp (f : params -> params) : M unit := fun s => (Some tt, MkS (f (par s)) (ob s)).
Fixpoint mapM {A B} (f : A -> M B) (l : list A) : M (list B) :=
  match l with [] => ret [] | a :: l => bnd (f a) (fun b => bnd (mapM f l) (fun r => ret (b :: r))) end.

(** attribute assignments *)
Definition with_q q p := MkP q (p_alg p) (p_ncoef p) (p_range p) (p_res p) (p_proj p) (p_sym p) (p_nac p) (p_fit p) (p_silent p) (p_symmetrize p) (p_other p).
Definition with_alg a p := MkP (p_q p) a (p_ncoef p) (p_range p) (p_res p) (p_proj p) (p_sym p) (p_nac p) (p_fit p) (p_silent p) (p_symmetrize p) (p_other p).
Definition with_ncoef n p := MkP (p_q p) (p_alg p) n (p_range p) (p_res p) (p_proj p) (p_sym p) (p_nac p) (p_fit p) (p_silent p) (p_symmetrize p) (p_other p).
Definition with_range r p := MkP (p_q p) (p_alg p) (p_ncoef p) r (p_res p) (p_proj p) (p_sym p) (p_nac p) (p_fit p) (p_silent p) (p_symmetrize p) (p_other p).
Definition with_res r p := MkP (p_q p) (p_alg p) (p_ncoef p) (p_range p) r (p_proj p) (p_sym p) (p_nac p) (p_fit p) (p_silent p) (p_symmetrize p) (p_other p).
Definition with_proj a p := MkP (p_q p) (p_alg p) (p_ncoef p) (p_range p) (p_res p) a (p_sym p) (p_nac p) (p_fit p) (p_silent p) (p_symmetrize p) (p_other p).
Definition with_nac b p := MkP (p_q p) (p_alg p) (p_ncoef p) (p_range p) (p_res p) (p_proj p) (p_sym p) b (p_fit p) (p_silent p) (p_symmetrize p) (p_other p).
Definition with_fit f p := MkP (p_q p) (p_alg p) (p_ncoef p) (p_range p) (p_res p) (p_proj p) (p_sym p) (p_nac p) f (p_silent p) (p_symmetrize p) (p_other p).
Definition with_silent b p := MkP (p_q p) (p_alg p) (p_ncoef p) (p_range p) (p_res p) (p_proj p) (p_sym p) (p_nac p) (p_fit p) b (p_symmetrize p) (p_other p).

Definition put_dyn d o := MkO d (o_vc o) (o_ev o) (o_fq o) (o_vq o) (o_ph o) (o_wv o) (o_full o) (o_part o) (o_rfc o) (o_com o) (o_temp o) (o_qha o).
Definition put_vc x o := MkO (o_dyn o) x (o_ev o) (o_fq o) (o_vq o) (o_ph o) (o_wv o) (o_full o) (o_part o) (o_rfc o) (o_com o) (o_temp o) (o_qha o).
Definition put_eig e f o := MkO (o_dyn o) (o_vc o) e f (o_vq o) (o_ph o) (o_wv o) (o_full o) (o_part o) (o_rfc o) (o_com o) (o_temp o) (o_qha o).
Definition put_vq x o := MkO (o_dyn o) (o_vc o) (o_ev o) (o_fq o) x (o_ph o) (o_wv o) (o_full o) (o_part o) (o_rfc o) (o_com o) (o_temp o) (o_qha o).
Definition put_ph x o := MkO (o_dyn o) (o_vc o) (o_ev o) (o_fq o) (o_vq o) x (o_wv o) (o_full o) (o_part o) (o_rfc o) (o_com o) (o_temp o) (o_qha o).
Definition put_wv x o := MkO (o_dyn o) (o_vc o) (o_ev o) (o_fq o) (o_vq o) (o_ph o) x (o_full o) (o_part o) (o_rfc o) (o_com o) (o_temp o) (o_qha o).
Definition put_full x o := MkO (o_dyn o) (o_vc o) (o_ev o) (o_fq o) (o_vq o) (o_ph o) (o_wv o) x (o_part o) (o_rfc o) (o_com o) (o_temp o) (o_qha o).
Definition put_part x o := MkO (o_dyn o) (o_vc o) (o_ev o) (o_fq o) (o_vq o) (o_ph o) (o_wv o) (o_full o) x (o_rfc o) (o_com o) (o_temp o) (o_qha o).
Definition put_rfc x o := MkO (o_dyn o) (o_vc o) (o_ev o) (o_fq o) (o_vq o) (o_ph o) (o_wv o) (o_full o) (o_part o) x (o_com o) (o_temp o) (o_qha o).
Definition put_com x o := MkO (o_dyn o) (o_vc o) (o_ev o) (o_fq o) (o_vq o) (o_ph o) (o_wv o) (o_full o) (o_part o) (o_rfc o) x (o_temp o) (o_qha o).
Definition put_temp x o := MkO (o_dyn o) (o_vc o) (o_ev o) (o_fq o) (o_vq o) (o_ph o) (o_wv o) (o_full o) (o_part o) (o_rfc o) (o_com o) x (o_qha o).
Definition put_qha x o := MkO (o_dyn o) (o_vc o) (o_ev o) (o_fq o) (o_vq o) (o_ph o) (o_wv o) (o_full o) (o_part o) (o_rfc o) (o_com o) (o_temp o) x.

(** dynaphopy/__init__.py:58-65 full_clear *)
Definition full_clear (o : obj) : obj :=
  MkO (o_dyn o) None None None None None None None (o_part o) (o_rfc o) (o_com o) (o_temp o) (o_qha o).
(** dynaphopy/__init__.py:73-76 force_constants_clear *)
Definition force_constants_clear (o : obj) : obj :=
  MkO (o_dyn o) (o_vc o) (o_ev o) (o_fq o) (o_vq o) (o_ph o) (o_wv o) (o_full o) (o_part o) None None (o_temp o) (o_qha o).
(** dynaphopy/__init__.py:67-71 power_spectra_clear *)
Definition power_spectra_clear (o : obj) : obj :=
  force_constants_clear (MkO (o_dyn o) (o_vc o) (o_ev o) (o_fq o) (o_vq o) None None None (o_part o) (o_rfc o) (o_com o) (o_temp o) (o_qha o)).

(** dynaphopy/__init__.py:48-55 crop_trajectory *)
Definition crop_trajectory (n : option Z) : M unit :=
  bnd (gets (fun s => o_vc (ob s))) (fun v => match v with
  | None => bnd (gets (fun s => crop K n (o_dyn (ob s)))) (fun r => match r with
            | Some d => modo (put_dyn d) | None => fail end)
  | Some v => match n with Some k => modo (put_vc (Some (crop_vc K k v))) | None => ret tt end
  end).
(** dynaphopy/__init__.py:22-44 __init__: the parameters object is the existing singleton (dynaphopy/parameters.py:4-10) *)
Definition new_obj (d : D K) (vc : option (VC K)) : obj :=
  MkO d vc None None None None None None None None None None None.

(** dynaphopy/__init__.py:91-99 set_NAC *)
Definition set_NAC (b : bool) : M unit := modp (with_nac b).
(** dynaphopy/__init__.py:128-130 set_number_of_mem_coefficients *)
Definition set_number_of_mem_coefficients (n : Z) : M unit :=
  bnd (modo power_spectra_clear) (fun _ => modp (with_ncoef n)).
(** dynaphopy/__init__.py:132-137 set_projection_onto_atom_type *)
Definition set_projection_onto_atom_type (a : Z) : M unit :=
  bnd (gets (fun s => primitive_atoms K (o_dyn (ob s)))) (fun n =>
  if (0 <=? a) && (a <? n) then modp (with_proj a) else fail).
(** dynaphopy/__init__.py:139-142 _set_frequency_range; np.array_equiv is modelled as equality *)
Definition set_frequency_range (r : FR K) : M unit :=
  bnd (gets (fun s => p_range (par s))) (fun old =>
  if fr_eq_dec K r old then ret tt else bnd (modo power_spectra_clear) (fun _ => modp (with_range r))).
(** dynaphopy/__init__.py:144-147 set_spectra_resolution *)
Definition set_spectra_resolution (res : R) : M unit :=
  bnd (gets (fun s => p_range (par s))) (fun old =>
  bnd (modp (with_res res)) (fun _ => set_frequency_range (respan K old res))).
(** dynaphopy/__init__.py:149-151 set_frequency_limits *)
Definition set_frequency_limits (lo hi : R) : M unit :=
  bnd (gets (fun s => p_res (par s))) (fun res => set_frequency_range (limits_range K lo hi res)).
(** dynaphopy/__init__.py:157-162 set_reduced_q_vector *)
Definition set_reduced_q_vector (q : qvec) : M unit :=
  bnd (gets (fun s => p_q (par s))) (fun old =>
  bnd (if (length q =? length old)%nat then (if qvec_eq_dec q old then ret tt else modo full_clear) else ret tt) (fun _ =>
  modp (with_q q))).
Definition get_reduced_q_vector : M qvec := gets (fun s => p_q (par s)).
(** dynaphopy/__init__.py:172-186 get_eigenvectors, get_frequencies *)
Definition get_eigenvectors : M (E K) :=
  bnd (gets (fun s => o_ev (ob s))) (fun c => match c with Some e => ret e | None =>
  bnd (gets (fun s => eig K (o_dyn (ob s)) (p_q (par s)))) (fun ef =>
  bnd (modo (put_eig (Some (fst ef)) (Some (snd ef)))) (fun _ => ret (fst ef))) end).
Definition get_frequencies : M (list R) :=
  bnd (gets (fun s => o_fq (ob s))) (fun c => match c with Some f => ret f | None =>
  bnd (gets (fun s => eig K (o_dyn (ob s)) (p_q (par s)))) (fun ef =>
  bnd (modo (put_eig (Some (fst ef)) (Some (snd ef)))) (fun _ => ret (snd ef))) end).
(** dynaphopy/__init__.py:626-640 get_vc *)
Definition get_vc : M (VC K) :=
  bnd (gets (fun s => o_vc (ob s))) (fun c => match c with Some v => ret v | None =>
  bnd (gets (fun s => project K (o_dyn (ob s)) (p_q (par s)) (p_proj (par s)))) (fun v =>
  bnd (modo (put_vc (Some v))) (fun _ => ret v)) end).
(** dynaphopy/__init__.py:642-646 get_vq *)
Definition get_vq : M (VQ K) :=
  bnd (gets (fun s => o_vq (ob s))) (fun c => match c with Some v => ret v | None =>
  bnd get_vc (fun v => bnd get_eigenvectors (fun e =>
  bnd (modo (put_vq (Some (modes K v e)))) (fun _ => ret (modes K v e)))) end).
(** dynaphopy/__init__.py:697-707 select_power_spectra_algorithm (keys 0..5) *)
Definition select_power_spectra_algorithm (a : Z) : M unit :=
  if (0 <=? a) && (a <=? 5) then
    bnd (gets (fun s => p_alg (par s))) (fun old =>
    if a =? old then ret tt else bnd (modo power_spectra_clear) (fun _ => modp (with_alg a)))
  else fail.
(** dynaphopy/__init__.py:709-719 select_fitting_function (keys 0..2) *)
Definition select_fitting_function (f : Z) : M unit :=
  if (0 <=? f) && (f <=? 2) then
    bnd (gets (fun s => p_fit (par s))) (fun old =>
    if f =? old then ret tt else bnd (modo force_constants_clear) (fun _ => modp (with_fit f)))
  else fail.

(** the call power_spectrum_functions[algorithm][0](vq, dynamic, parameters) *)
Definition run_spectrum_vq (v : VQ K) : M (PS K) :=
  bnd (gets (fun s => spectrum_vq K (p_alg (par s)) (p_ncoef (par s)) (p_range (par s)) (p_other (par s)) v (o_dyn (ob s)))) lift.
Definition run_spectrum_vc (v : VC K) : M (PS K) :=
  bnd (gets (fun s => spectrum_vc K (p_alg (par s)) (p_ncoef (par s)) (p_range (par s)) (p_other (par s)) v (o_dyn (ob s)))) lift.
(** dynaphopy/__init__.py:721-746 get_power_spectrum_phonon *)
Definition get_power_spectrum_phonon : M (PS K) :=
  bnd (gets (fun s => o_ph (ob s))) (fun c => match c with Some x => ret x | None =>
  bnd (gets (fun s => p_sym (par s))) (fun sym =>
  if (sym : bool) then
    bnd get_reduced_q_vector (fun q0 =>
    bnd (gets (fun s => equivalent K (o_dyn (ob s)) (p_q (par s)))) (fun qs =>
    bnd (mapM (fun q => bnd (set_reduced_q_vector q) (fun _ => bnd get_vq run_spectrum_vq)) qs) (fun l =>
    bnd (set_reduced_q_vector q0) (fun _ =>
    bnd (modo (put_ph (Some (average K l)))) (fun _ => ret (average K l))))))
  else
    bnd get_vq (fun v => bnd (run_spectrum_vq v) (fun x => bnd (modo (put_ph (Some x))) (fun _ => ret x)))) end).
(** dynaphopy/__init__.py:748-779 get_power_spectrum_wave_vector (before the final sum over columns) *)
Definition get_power_spectrum_wave_vector : M (PS K) :=
  bnd (gets (fun s => o_wv (ob s))) (fun c => match c with Some x => ret x | None =>
  bnd get_vc (fun _ =>
  bnd (gets (fun s => p_sym (par s))) (fun sym =>
  if (sym : bool) then
    bnd get_reduced_q_vector (fun q0 =>
    bnd (gets (fun s => equivalent K (o_dyn (ob s)) (p_q (par s)))) (fun qs =>
    bnd (mapM (fun q => bnd (set_reduced_q_vector q) (fun _ => bnd get_vc run_spectrum_vc)) qs) (fun l =>
    bnd (set_reduced_q_vector q0) (fun _ =>
    bnd (modo (put_wv (Some (average K l)))) (fun _ => ret (average K l))))))
  else
    bnd get_vc (fun v => bnd (run_spectrum_vc v) (fun x => bnd (modo (put_wv (Some x))) (fun _ => ret x))))) end).
(** dynaphopy/__init__.py:781-831 get_power_spectrum_full(projection_on_coordinate); the checks of type and coordinate and
    the summation are inside the kernel, which here fills the cache only when it succeeds (what a
    failure half way leaves in the cache is the subject of FailureModel) *)
Definition get_power_spectrum_full (coord : Z) : M (PS K) :=
  bnd (gets (fun s => o_full (ob s))) (fun c => match c with Some x => ret x | None =>
  bnd (gets (fun s => spectrum_full K (p_alg (par s)) (p_ncoef (par s)) (p_range (par s)) (p_other (par s)) (p_proj (par s)) coord (o_dyn (ob s)))) (fun r =>
  bnd (lift r) (fun x => bnd (modo (put_full (Some x))) (fun _ => ret x))) end).
(** dynaphopy/__init__.py:833-854 get_power_spectrum_partials (same remark) *)
Definition get_power_spectrum_partials : M (PS K) :=
  bnd (gets (fun s => o_part (ob s))) (fun c => match c with Some x => ret x | None =>
  bnd (gets (fun s => spectrum_partials K (p_alg (par s)) (p_ncoef (par s)) (p_range (par s)) (p_other (par s)) (o_dyn (ob s)))) (fun r =>
  bnd (lift r) (fun x => bnd (modo (put_part (Some x))) (fun _ => ret x))) end).
(** dynaphopy/__init__.py:1086-1092 get_temperature with dynaphopy/analysis/energy.py:22-26: temperature = scale^2/kb; "not x" is
    true for None and for 0.  The plot suppressed by silent does not affect the value. *)
Definition kb_boltzmann : R := 831446 / 1000000.
Definition get_temperature : M R :=
  bnd (gets (fun s => o_temp (ob s))) (fun c =>
  let cached := match c with Some t => if Req_EM_T t 0 then None else Some t | None => None end in
  match cached with Some t => ret t | None =>
  bnd (gets (fun s => p_silent (par s))) (fun save =>
  bnd (modp (with_silent true)) (fun _ =>
  bnd (gets (fun s => (maxwell_scale K (o_dyn (ob s)) ^ 2 / kb_boltzmann)%R)) (fun t =>
  bnd (modo (put_temp (Some t))) (fun _ =>
  bnd (modp (with_silent save)) (fun _ => ret t))))) end).
Definition set_temperature (t : R) : M unit := modo (put_temp (Some t)).
(** dynaphopy/__init__.py:1446-1448 set_qha_force_constants (file content as argument) *)
Definition set_qha_force_constants (f : FC K) : M unit := modo (put_qha (Some f)).
Definition vminus (a b : list R) : list R := map (fun p => fst p - snd p)%R (combine a b).
(** dynaphopy/__init__.py:1450-1460 get_qha_shift *)
Definition get_qha_shift (q : qvec) : M (option (list R)) :=
  bnd (gets (fun s => o_qha (ob s))) (fun h => match h with
  | None => ret None
  | Some fc => bnd (gets (fun s => qha_frequencies K (o_dyn (ob s)) fc q)) (fun f =>
               bnd get_frequencies (fun f0 => ret (Some (vminus f f0)))) end).
(** dynaphopy/__init__.py:1464-1469 _vector_in_list *)
Fixpoint index_of (v : qvec) (l : list qvec) (i : nat) : option nat :=
  match l with [] => None | w :: l => if qvec_eq_dec w v then Some i else index_of v l (S i) end.
Fixpoint vector_in_list (tests full : list qvec) : nat :=
  match tests with [] => 0%nat | t :: ts => match index_of t full 0 with Some i => i | None => vector_in_list ts full end end.
(** positions[0..2] = 0., widths likewise (1152-1159); lists of fewer than three entries would raise *)
Definition zero3 (l : list R) : option (list R) :=
  match l with _ :: _ :: _ :: t => Some (0 :: 0 :: 0 :: t)%R | _ => None end.
Definition gamma : qvec := [0; 0; 0]%R.
(** dynaphopy/__init__.py:1128-1163: one iteration of the loop over commensurate points; state (rows, eigenvectors, q points) *)
Definition com_step (acc : com_data) (q : qvec) : M com_data :=
  bnd (set_reduced_q_vector q) (fun _ =>
  bnd get_eigenvectors (fun e =>
  bnd (gets (fun s => equivalent K (o_dyn (ob s)) q)) (fun eq =>
  let i := vector_in_list eq (c_q acc) in
  bnd (gets (fun s => p_sym (par s))) (fun sym =>
  if negb (i =? 0)%nat && sym then
    bnd (lift (nth_error (c_rows acc) i)) (fun row => ret (MkCom (c_rows acc ++ [row]) (c_eig acc ++ [e]) (c_q acc ++ [q])))
  else
    bnd (set_reduced_q_vector q) (fun _ =>
    bnd get_power_spectrum_phonon (fun ps =>
    bnd (gets (fun s => p_range (par s))) (fun range =>
    bnd get_frequencies (fun f =>
    bnd (get_qha_shift q) (fun shift =>
    bnd (gets (fun s => fit K ps range f shift (p_fit (par s)) (p_sym (par s)))) (fun pw =>
    bnd (if qvec_eq_dec q gamma then lift (zero3 (fst pw)) else ret (fst pw)) (fun pos =>
    bnd (if qvec_eq_dec q gamma then lift (zero3 (snd pw)) else ret (snd pw)) (fun wid =>
    bnd get_frequencies (fun f' =>
    ret (MkCom (c_rows acc ++ [MkRow pos wid (vminus pos f')]) (c_eig acc ++ [e]) (c_q acc ++ [q]))))))))))))))).
Fixpoint com_loop (l : list qvec) (acc : com_data) : M com_data :=
  match l with [] => ret acc | q :: l => bnd (com_step acc q) (com_loop l) end.
(** dynaphopy/__init__.py:1100-1195 get_commensurate_points_data(auto_range) *)
Definition get_commensurate_points_data (auto : bool) : M com_data :=
  bnd (gets (fun s => o_com (ob s))) (fun c => match c with Some d => ret d | None =>
  bnd (if auto then bnd (gets (fun s => dos_max K (o_dyn (ob s)) (p_other (par s)))) (fun m => set_frequency_limits 0 m) else ret tt) (fun _ =>
  bnd (gets (fun s => com_points K (o_dyn (ob s)) (p_other (par s)))) (fun pts =>
  bnd get_reduced_q_vector (fun q0 =>
  bnd (com_loop pts (MkCom [] [] [])) (fun data =>
  bnd (modo (put_com (Some data))) (fun _ =>
  bnd (set_reduced_q_vector q0) (fun _ => ret data)))))) end).
(** dynaphopy/__init__.py:1197-1212 get_renormalized_force_constants *)
Definition get_renormalized_force_constants : M (FC K) :=
  bnd (get_commensurate_points_data true) (fun data =>
  bnd (gets (fun s => o_rfc (ob s))) (fun c => match c with Some f => ret f | None =>
  bnd (gets (fun s => renormalize K (map r_freq (c_rows data)) (c_eig data) (o_dyn (ob s)) (p_other (par s)) (p_symmetrize (par s)))) (fun f =>
  bnd (modo (put_rfc (Some f))) (fun _ => ret f)) end)).

(** public calls *)
Inductive call :=
  | Crop (n : option Z) | SetNAC (b : bool) | SetMem (n : Z) | SetProj (a : Z) | SetResolution (r : R)
  | SetLimits (lo hi : R) | SetQ (q : qvec) | SelAlg (a : Z) | SelFit (f : Z) | SetTemp (t : R) | SetQha (f : FC K)
  | GetQ | GetEig | GetFreq | GetVc | GetVq | GetPhonon | GetWave | GetFull (c : Z) | GetPartials
  | GetTemp | GetCom (auto : bool) | GetRFC.
Inductive value := VUnit | VQv (q : qvec) | VE (e : E K) | VF (f : list R) | VVc (v : VC K) | VVq (v : VQ K)
  | VPS (p : PS K) | VT (t : R) | VCom (c : com_data) | VFC (f : FC K).
Definition fm {A} (f : A -> value) (m : M A) : M value := bnd m (fun a => ret (f a)).
Definition do_call (c : call) : M value :=
  match c with
  | Crop n => fm (fun _ => VUnit) (crop_trajectory n)
  | SetNAC b => fm (fun _ => VUnit) (set_NAC b)
  | SetMem n => fm (fun _ => VUnit) (set_number_of_mem_coefficients n)
  | SetProj a => fm (fun _ => VUnit) (set_projection_onto_atom_type a)
  | SetResolution r => fm (fun _ => VUnit) (set_spectra_resolution r)
  | SetLimits lo hi => fm (fun _ => VUnit) (set_frequency_limits lo hi)
  | SetQ q => fm (fun _ => VUnit) (set_reduced_q_vector q)
  | SelAlg a => fm (fun _ => VUnit) (select_power_spectra_algorithm a)
  | SelFit f => fm (fun _ => VUnit) (select_fitting_function f)
  | SetTemp t => fm (fun _ => VUnit) (set_temperature t)
  | SetQha f => fm (fun _ => VUnit) (set_qha_force_constants f)
  | GetQ => fm VQv get_reduced_q_vector
  | GetEig => fm VE get_eigenvectors
  | GetFreq => fm VF get_frequencies
  | GetVc => fm VVc get_vc
  | GetVq => fm VVq get_vq
  | GetPhonon => fm VPS get_power_spectrum_phonon
  | GetWave => fm VPS get_power_spectrum_wave_vector
  | GetFull c => fm VPS (get_power_spectrum_full c)
  | GetPartials => fm VPS get_power_spectrum_partials
  | GetTemp => fm VT get_temperature
  | GetCom a => fm VCom (get_commensurate_points_data a)
  | GetRFC => fm VFC get_renormalized_force_constants
  end.
(** a history; an exit()/exception inside a call is caught and the history goes on *)
Definition run (h : list call) (s : state) : state := fold_left (fun s c => snd (do_call c s)) h s.

(** two objects sharing the singleton settings (dynaphopy/parameters.py:4-10) *)
Record duo := MkDuo { d_par : params; d_a : obj; d_b : obj }.
Definition on_a (c : call) (w : duo) : option value * duo :=
  let '(r, s) := do_call c (MkS (d_par w) (d_a w)) in (r, MkDuo (par s) (ob s) (d_b w)).
Definition on_b (c : call) (w : duo) : option value * duo :=
  let '(r, s) := do_call c (MkS (d_par w) (d_b w)) in (r, MkDuo (par s) (d_a w) (ob s)).
End Model.
