(** Model of the OpenMP loops of c/mem.c:155-169 and c/correlation.c:143-147: threads that interleave single accesses to shared memory.
    [D] is the type of a double; nothing is assumed about its arithmetic. *)
From Coq Require Export List Arith Bool.
Export ListNotations.

Section Omp.
Context {D : Type}.
(** One machine step of a thread on iteration [i].  Every read and every write of the shared array is a step of its own; a function gets
    AngularFrequency and the thread's register (None: never set) and answers None when the C code would use something undefined. *)
Inductive instr :=
| SetAng (i : nat) (f : D -> D)                                      (* AngularFrequency = f(Frequency[i]) *)
| Load (i : nat)                                                     (* register = PowerSpectrum[i] *)
| Store (i : nat) (f : option D -> option D -> option D).            (* PowerSpectrum[i] = f(AngularFrequency, register) *)
Definition index (x : instr) : nat := match x with SetAng i _ => i | Load i => i | Store i _ => i end.

(** own copy of AngularFrequency, register *)
Record regs := MkRegs { own_ang : option D; reg : option D }.
(** the variable AngularFrequency of the function, the output array *)
Record mem := MkMem { the_ang : option D; ps : nat -> option D }.
Definition put (q : nat -> option D) (i : nat) (x : D) : nat -> option D := fun k => if k =? i then Some x else q k.

(** [private]: the variable is listed in private(...); [freq] the input array, [n] the size of both arrays. *)
Context (private : bool) (freq : nat -> D) (n : nat).
Definition exec (x : instr) (r : regs) (m : mem) : option (regs * mem) :=
  if index x <? n then
    match x with
    | SetAng i f => if private then Some (MkRegs (Some (f (freq i))) (reg r), m) else Some (r, MkMem (Some (f (freq i))) (ps m))
    | Load i => match ps m i with None => None | Some v => Some (MkRegs (own_ang r) (Some v), m) end
    | Store i f => match f (if private then own_ang r else the_ang m) (reg r) with None => None | Some v => Some (r, MkMem (the_ang m) (put (ps m) i v)) end
    end
  else None.

Definition thread := (regs * list instr)%type.
Record state := MkState { shared : mem; threads : list thread }.
Fixpoint replace {A} (l : list A) (k : nat) (x : A) : list A := match l, k with [], _ => [] | _ :: t, O => x :: t | a :: t, S k => a :: replace t k x end.
(** thread t makes one step *)
Definition step (t : nat) (s : state) : option state :=
  match nth_error (threads s) t with
  | Some (r, x :: rest) => match exec x r (shared s) with None => None | Some (r', m') => Some (MkState m' (replace (threads s) t (r', rest))) end
  | _ => None
  end.
Fixpoint run (schedule : list nat) (s : state) : option state :=
  match schedule with [] => Some s | t :: l => match step t s with None => None | Some s' => run l s' end end.
(** the parallel loop: the iterations have been dealt to the threads; private variables and the new output array are uninitialised *)
Definition start (body : nat -> list instr) (dealt : list (list nat)) : state :=
  MkState (MkMem None (fun _ => None)) (map (fun c => (MkRegs None None, flat_map body c)) dealt).
End Omp.
Arguments instr : clear implicits.
Arguments regs : clear implicits.
Arguments mem : clear implicits.
Arguments state : clear implicits.

(** c/mem.c:156-169 the body of the loop.  [zero] 0.0, [angular] x*2.0*M_PI, [plus] +, [scale] x*TimeStep, [part_r] and [part_i] what
    FrequencyEvaluation gives for the real and imaginary part at an AngularFrequency, [go_r] and [go_i] the tests on the discrepancies. *)
Definition mem_body {D} (zero : D) (angular : D -> D) (plus : D -> D -> D) (scale : D -> D) (part_r part_i : D -> option D) (go_r go_i : bool) (i : nat) : list (instr D) :=
  let add (part : D -> option D) := Store i (fun w x => match w, x with Some w, Some x => match part w with Some y => Some (plus x y) | None => None end | _, _ => None end) in
  [SetAng i angular; Store i (fun _ _ => Some zero)] ++
  (if go_r then [Load i; add part_r] else []) ++
  (if go_i then [Load i; add part_i] else []) ++
  [Load i; Store i (fun _ x => match x with Some x => Some (scale x) | None => None end)].
(** c/correlation.c:144-147 *)
Definition corr_body {D} (angular : D -> D) (evaluate : D -> option D) (i : nat) : list (instr D) :=
  [SetAng i angular; Store i (fun w _ => match w with Some w => evaluate w | None => None end)].
(** c/mem.c:155 and c/correlation.c:143: private(AngularFrequency) *)
Definition angular_frequency_is_private : bool := true.
