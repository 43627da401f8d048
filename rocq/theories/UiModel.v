(** Model of the interactive menu (dynaphopy/interface/interactive_ui.py) on top of the Quasiparticle model: which calls each menu entry
    makes, and how a selection is typed.  Not modelled: drawing, plots of quantities that read the trajectory only (entries 4 and 8),
    harmonic dispersion plots (entry 1, 3 and 4: BandCacheModel), histogram bins and vector scale, which only affect drawings. *)
From Verif Require Export QuasiModel.
From Coq Require Export Ascii.
Open Scope Z_scope.

Section Ui.
Context (K : kernels).
(** one statement of the menu: a call of the object, full_clear (line 350), the direct assignment of line 312, an exception while reading a key (line 282) *)
Inductive ui_step := UCall (c : call K) | UClear | UNcoef (n : Z) | URaise.
(** menu entries *)
Inductive action :=
  | Frequencies | Eigenvectors                                  (* 1/1, 1/2 *)
  | WaveVector (q : qvec)                                       (* 2 *)
  | Thermal                                                     (* 3 *)
  | PlotFull | PlotWave | PlotPhonon                            (* 5/1-3 *)
  | Dispersion | Mesh                                           (* 6/1-3, 6/4 *)
  | Peaks                                                       (* 7 *)
  | Algorithm (keys : list ascii) | Nac (born_file : bool) (keys : list ascii) | Mem (n : Z) | Fitting (keys : list ascii) | Resolution (r : R) | Range (lo hi : R).  (* 9/1,2,3,6,7,8 *)
(** dynaphopy/interface/interactive_ui.py:255-276 and 325-344: keys are read until one is a digit below the number of entries; [None] while none was typed.
    int(chr(key)) with ValueError giving 9 *)
Definition digit (c : ascii) : Z :=
  let n := Z.of_nat (nat_of_ascii c) in if (48 <=? n) && (n <=? 57) then n - 48 else 9.
Fixpoint typed (entries : Z) (keys : list ascii) : option Z :=
  match keys with [] => None | k :: keys => if entries <=? digit k then typed entries keys else Some (digit k) end.
(** dynaphopy/interface/interactive_ui.py:279-306: [while int(chr(x3)) > 2: x3 = getch()], then, if a BORN file exists, [set_NAC(bool(int(chr(x3)) - 2))]: a key that is not a
    digit raises ValueError ([None]) *)
Definition is_digit (c : ascii) : bool := let n := Z.of_nat (nat_of_ascii c) in (48 <=? n) && (n <=? 57).
Fixpoint nac_steps (born_file : bool) (keys : list ascii) : list ui_step :=
  match keys with
  | [] => []
  | k :: keys => if negb (is_digit k) then [URaise] else if 2 <? digit k then nac_steps born_file keys
                 else if born_file then [UCall (SetNAC K (negb (digit k - 2 =? 0)))] else []
  end.
(** 103-352.  A menu entry whose selection was never completed does nothing. *)
Definition steps (a : action) : list ui_step :=
  match a with
  | Frequencies => [UCall (GetFreq K)]
  | Eigenvectors => [UCall (GetEig K)]
  | WaveVector q => [UCall (SetQ K q)]
  | Thermal => [UCall (GetTemp K); UCall (GetTemp K); UCall (GetRFC K); UCall (GetTemp K); UCall (GetRFC K)]
  | PlotFull => [UCall (GetFull K (-1)); UCall (GetFull K (-1))]
  | PlotWave => [UCall (GetWave K); UCall (GetWave K)]
  | PlotPhonon => [UCall (GetPhonon K)]
  | Dispersion => [UCall (GetRFC K); UCall (GetCom K true)]
  | Mesh => [UCall (GetCom K true)]
  | Peaks => [UCall (GetPhonon K); UCall (GetFreq K)]
  | Algorithm keys => match typed 6 keys with Some a => [UCall (SelAlg K a)] | None => [] end
  | Nac b keys => nac_steps b keys
  | Mem n => [UNcoef n]
  | Fitting keys => match typed 3 keys with Some f => [UCall (SelFit K f)] | None => [] end
  | Resolution r => [UCall (SetResolution K r); UClear]
  | Range lo hi => [UCall (SetLimits K lo hi)]
  end.
(** an exception ends the session: [None] *)
Definition do_step (x : ui_step) (s : state K) : option (value K) * state K :=
  match x with
  | UCall c => do_call K c s
  | UClear => (Some (VUnit K), MkS K (par K s) (full_clear K (ob K s)))
  | UNcoef n => (Some (VUnit K), MkS K (with_ncoef K n (par K s)) (ob K s))
  | URaise => (None, s)
  end.
Fixpoint perform (l : list ui_step) (s : state K) : option (state K) :=
  match l with [] => Some s | x :: l => match do_step x s with (Some _, s') => perform l s' | (None, _) => None end end.
Fixpoint session (acts : list action) (s : state K) : option (state K) :=
  match acts with [] => Some s | a :: acts => match perform (steps a) s with Some s' => session acts s' | None => None end end.
(** what an entry then shows: the values of its getters, in order *)
Fixpoint shown (l : list ui_step) (s : state K) : list (value K) :=
  match l with
  | [] => []
  | x :: l => match do_step x s with (Some v, s') => v :: shown l s' | (None, _) => [] end
  end.
Definition shows (a : action) (s : state K) : list (value K) := shown (steps a) s.
End Ui.

(** dynaphopy/interface/interactive_ui.py:13-19 list_on_screen: np.array(pile).reshape((-1,3)), then one text per element; (row, column, number, value).
    [None] when the number of elements is not a multiple of three (reshape raises). *)
Fixpoint rows3 {A} (l : list A) : option (list (list A)) :=
  match l with
  | [] => Some []
  | x :: y :: z :: l => option_map (cons [x; y; z]) (rows3 l)
  | _ => None
  end.
Definition list_on_screen {A} (pile : list A) (posx posy : nat) : option (list (nat * nat * nat * A)) :=
  option_map (fun rows => concat (map (fun ir => map (fun je => ((posx + fst ir)%nat, (posy + fst je * 20)%nat, (fst ir * length (hd [] rows) + fst je + 1)%nat, snd je))
      (combine (seq 0 (length (snd ir))) (snd ir))) (combine (seq 0 (length rows)) rows))) (rows3 pile).
