(** Model of dynaphopy/interface/iofile/trajectory_parsers.py.
    A file is its list of lines; a position in the memory map is the list of lines still to be read.
    mmap.find starts at the current position, and every find/seek is followed by readline, so a position is always
    at the beginning of a line (or inside the line found, whose rest is then consumed by readline).
    Lines, words and the conversions float(...)/int(...) are parameters.  Exact real arithmetic.
    Simplifications: number_of_dimensions is 3; frames have at least one atom; the existence check, the prints and the
    temporary directory are left out; structure is not None in the LAMMPS reader (it dereferences it unconditionally). *)
From Verif Require Export Base.
From Coq Require Export String.
Open Scope R_scope.

(** outcome of a reader: a value, an uncaught exception, exit(), or the loop bound of the model was hit (proved impossible) *)
Inductive res (A : Type) := Ok (a : A) | Crash | Exit | Fuel.
Arguments Ok {A} _. Arguments Crash {A}. Arguments Exit {A}. Arguments Fuel {A}.
Definition bind {A B} (x : res A) (f : A -> res B) : res B :=
  match x with Ok a => f a | Crash => Crash | Exit => Exit | Fuel => Fuel end.
Definition need {A} (x : option A) : res A := match x with Some a => Ok a | None => Crash end.
Notation "'do' x <- a ; b" := (bind a (fun x => b)) (at level 200, x pattern, a at level 100, b at level 200).

Fixpoint all_some {A} (l : list (option A)) : option (list A) :=
  match l with
  | [] => Some []
  | Some x :: t => match all_some t with Some r => Some (x :: r) | None => None end
  | None :: _ => None
  end.
(** a[indexing, :]: an index out of range raises *)
Definition gather {A} (idx : list nat) (l : list A) : option (list A) := all_some (map (fun i => nth_error l i) idx).
(** l[-n:] *)
Definition neg_slice {A} (n : Z) (l : list A) : list A :=
  if (0 <? n)%Z then skipn (List.length l - Z.to_nat n) l else skipn (Z.to_nat (- n)) l.
Fixpoint update {A} (k : nat) (x : A) (l : list A) : option (list A) :=
  match l, k with
  | [], _ => None
  | _ :: t, O => Some (x :: t)
  | y :: t, S k => option_map (cons y) (update k x t)
  end.

Definition frame := list vec.
Inductive frame_read := BadFrame | ShortFrame | GoodFrame (f : frame).
Inductive label_kind := Velocities | Positions | Unrecognised.
Inductive content := MkContent (c_time : list R) (c_data : list frame).
Definition c_time c := let '(MkContent t _) := c in t.
Definition c_data c := let '(MkContent _ d) := c in d.

(** dynaphopy/interface/iofile/trajectory_parsers.py:226-246: cell rows from the three BOX BOUNDS lines (b, tilt) *)
Record bounds := MkBounds { b_x : R * R; b_y : R * R; b_z : R * R; b_xy : R; b_xz : R; b_yz : R }.
Definition rmin (l : list R) (d : R) : R := fold_left Rmin l d.
Definition rmax (l : list R) (d : R) : R := fold_left Rmax l d.
Definition raw_supercell (b : bounds) : mat :=
  let xy := b_xy b in let xz := b_xz b in let yz := b_yz b in
  let xlo := fst (b_x b) - rmin [xy; xz; xy + xz] 0 in
  let xhi := snd (b_x b) - rmax [xy; xz; xy + xz] 0 in
  let ylo := fst (b_y b) - rmin [yz] 0 in
  let yhi := snd (b_y b) - rmax [yz] 0 in
  let zlo := fst (b_z b) in
  let zhi := snd (b_z b) in
  mT (M3 (V3 (xhi - xlo) xy xz) (V3 0 (yhi - ylo) yz) (V3 0 0 (zhi - zlo))).
(** dynaphopy/interface/iofile/trajectory_parsers.py:267-268 unit_matrix *)
Definition unit_row (v : vec) : vec := vscale (/ vnorm v) v.
Definition unit_matrix (m : mat) : mat := M3 (unit_row (r0 m)) (unit_row (r1 m)) (unit_row (r2 m)).
(** dynaphopy/interface/iofile/trajectory_parsers.py:270-273 transformation_mat *)
Definition transformation (inv : mat -> mat) (cell raw : mat) : mat :=
  mT (mmul (inv (unit_matrix cell)) (unit_matrix raw)).

(** dynaphopy/interface/iofile/trajectory_parsers.py:336-349 the header of the atom section decides what was dumped: b'vx vy' in labels, then b'x y' in labels *)
Definition contains (s sub : string) : bool := match String.index 0 sub s with Some _ => true | None => false end.
Definition label_of (s : string) : label_kind :=
  if contains s "vx vy" then Velocities else if contains s "x y" then Positions else Unrecognised.

Section Readers.
Context {L T : Type} (has : string -> L -> bool) (words : L -> list T) (num : T -> option R) (int : T -> option nat)
        (after_eq : L -> option R) (kind : L -> label_kind)
        (argsort : list R -> list nat) (inv : mat -> mat).

(** file_map.find(kw) then seek: the line found and everything after it *)
Fixpoint find (kw : string) (pos : list L) : option (list L) :=
  match pos with [] => None | l :: r => if has kw l then Some pos else find kw r end.
(** float(line) *)
Definition value (l : L) : option R := match words l with [t] => num t | _ => None end.
Definition count (l : L) : option nat := match words l with [t] => int t | _ => None end.
(** line.split()[0:3] converted by np.array(dtype=float) *)
Definition row3 (l : L) : option (list R) := all_some (map num (firstn 3 (words l))).
Definition fields (l : L) : option (list R) := all_some (map num (words l)).
(** n calls of readline; past the end of the file readline gives an empty line *)
Definition read_rows (n : nat) (pos : list L) : list (option (list R)) * list L :=
  (map row3 (firstn n pos) ++ repeat (Some []) (n - List.length pos), skipn n pos).
Definition vec_of (l : list R) : option vec := match l with [x; y; z] => Some (V3 x y z) | _ => None end.
(** np.array(read_coordinates, dtype=float): rows of different length or non-numbers raise; rows all shorter than 3 give a
    narrower array.  93-95, 300-302, 444-446: reordered with argsort(template). *)
Definition make_frame (template : option (list R)) (rows : list (option (list R))) : frame_read :=
  match all_some rows with
  | None => BadFrame
  | Some rs =>
      match all_some (map vec_of rs) with
      | Some vs => match template with
                   | None => GoodFrame vs
                   | Some t => match gather (argsort t) vs with Some ws => GoodFrame ws | None => BadFrame end
                   end
      | None => if forallb (fun r => Nat.eqb (List.length r) (List.length (hd [] rs))) rs then ShortFrame else BadFrame
      end
  end.

(** dynaphopy/interface/iofile/trajectory_parsers.py:113-120, 328-333, 471-476 the last_steps slice.  np.array([]) has one axis, so [-n:,:,:] raises when nothing was read;
    [need_axes]: the OUTCAR reader slices with three axes too. *)
Definition cut_last {A B} (last : option Z) (time : list A) (data : list B) : res (list A * list B) :=
  match last with
  | None => Ok (time, data)
  | Some n => match data with [] => Crash | _ => Ok (neg_slice n time, neg_slice n data) end
  end.

(** ---------- dynaphopy/interface/iofile/trajectory_parsers.py:9-131 read_vasp_trajectory ---------- *)
Record o_state := MkO { o_counter : nat; o_pos : list L; o_data : list frame; o_energy : list R }.
(** 74-109; [Ok] is the state at a break *)
Fixpoint outcar_loop (natoms initial_cut : nat) (end_cut : option nat) (limit : nat) (template : option (list R))
         (energy : L -> option R) (fuel : nat) (s : o_state) : res o_state :=
  match fuel with
  | O => Fuel
  | S fuel =>
      let counter := S (o_counter s) in
      if Nat.ltb counter initial_cut
      then outcar_loop natoms initial_cut end_cut limit template energy fuel (MkO counter (o_pos s) (o_data s) (o_energy s))
      else
        match find "POSITION" (o_pos s) with
        | None => Ok (MkO counter (o_pos s) (o_data s) (o_energy s))
        | Some p =>
            let '(rows, p') := read_rows natoms (skipn 2 p) in
            match make_frame template rows with
            | GoodFrame f =>
                do p'' <- need (find "energy(" p');
                match p'' with
                | [] => Crash
                | l :: p3 =>
                    do e <- need (energy l);
                    let s' := MkO counter p3 (o_data s ++ [f]) (o_energy s ++ [e]) in
                    if Nat.ltb (limit + initial_cut) counter then Ok s'
                    else match end_cut with
                         | Some b => if Nat.leb b counter then Ok s' else outcar_loop natoms initial_cut end_cut limit template energy fuel s'
                         | None => outcar_loop natoms initial_cut end_cut limit template energy fuel s'
                         end
                end
            | _ => Crash   (* narrower rows fail when they are unpacked (113-116) *)
            end
        end
  end.
(** dynaphopy/interface/iofile/trajectory_parsers.py:41-123: header (number of atoms from "NIONS =", POTIM * 1e-3), steps, last_steps, time i*time_step.
    [nions], [potim], [energy] convert the rest of the line after the keyword. *)
Definition read_outcar (nions : L -> option nat) (potim energy : L -> option R) (file : list L)
           (last : option Z) (initial_cut : nat) (end_cut : option nat) (limit : nat) (template : option (list R)) : res (content * list R) :=
  do p1 <- need (find "NIONS =" file);
  do n <- need (match p1 with l :: _ => nions l | [] => None end);
  do p2 <- need (find "POTIM  =" (tl p1));
  do ts <- need (match p2 with l :: _ => potim l | [] => None end);
  do p3 <- need (find "direct lattice vectors" (tl p2));
  do st <- outcar_loop n initial_cut end_cut limit template energy (S (initial_cut + List.length file)) (MkO 0 (tl p3) [] []);
  do (energies, data) <- cut_last last (o_energy st) (o_data st);
  Ok (MkContent (map (fun i => INR i * (ts * / 1000)) (seq 0 (List.length data))) data, energies).

(** ---------- dynaphopy/interface/iofile/trajectory_parsers.py:135-352 read_lammps_trajectory ---------- *)
Record header := MkHdr { h_natoms : nat; h_supercell : mat; h_trans : mat }.
(** dynaphopy/interface/iofile/trajectory_parsers.py:205-275: number of atoms and cell, read once from the start of the file; also the position left behind *)
Definition read_header (file : list L) (cell : mat) : option (header * list L) :=
  match find "NUMBER OF ATOMS" file with
  | Some (_ :: l :: _) =>
      match count l, find "BOX BOUNDS" file with
      | Some n, Some (_ :: x :: y :: z :: rest) =>
          let b := match fields x, fields y, fields z with
                   | Some [x0; x1], Some [y0; y1], Some [z0; z1] => Some (MkBounds (x0, x1) (y0, y1) (z0, z1) 0 0 0)
                   | Some [x0; x1; xy], Some [y0; y1; xz], Some [z0; z1; yz] => Some (MkBounds (x0, x1) (y0, y1) (z0, z1) xy xz yz)
                   | _, _, _ => None
                   end in
          match b with
          | Some b => let raw := raw_supercell b in
                      let t := transformation inv cell raw in
                      Some (MkHdr n (mmul raw t) t, rest)
          | None => None
          end
      | _, _ => None
      end
  | _ => None
  end.
(** [l_data]: the list of steps, or the memory mapped array *)
Record l_state := MkL { l_counter : nat; l_pos : list L; l_time : list R; l_data : list frame; l_hdr : option header; l_label : option L }.
(** dynaphopy/interface/iofile/trajectory_parsers.py:192-322 *)
Fixpoint lammps_loop (file : list L) (cell : mat) (initial_cut : nat) (end_cut : option nat) (limit : nat) (memmap : bool)
         (template : option (list R)) (fuel : nat) (s : l_state) : res l_state :=
  match fuel with
  | O => Fuel
  | S fuel =>
      let counter := S (l_counter s) in
      match find "TIMESTEP" (l_pos s) with
      | None => Ok (MkL counter (l_pos s) (l_time s) (l_data s) (l_hdr s) (l_label s))
      | Some (_ :: l :: p) =>
          do t <- need (value l);
          let time := l_time s ++ [t] in
          do (h, p, data) <-
            match l_hdr s with
            | Some h => Ok (h, p, l_data s)
            | None =>
                do (h, p) <- need (read_header file cell);
                if memmap
                then match end_cut with
                     | None | Some O => Exit
                     | Some b => if Nat.leb initial_cut b
                                 then Ok (h, p, repeat (repeat vzero (h_natoms h)) (b - initial_cut + 1))
                                 else Crash   (* empty or negative shape *)
                     end
                else Ok (h, p, l_data s)
            end;
          do p <- need (find "ITEM: ATOMS" p);
          match p with
          | [] => Crash
          | lab :: p =>
              if Nat.ltb counter initial_cut
              then lammps_loop file cell initial_cut end_cut limit memmap template fuel (MkL counter p [] data (Some h) (Some lab))
              else
                let '(rows, p) := read_rows (h_natoms h) p in
                match make_frame template rows with
                | BadFrame => Crash
                | ShortFrame => Ok (MkL counter p time data (Some h) (Some lab))   (* ValueError: break *)
                | GoodFrame f =>
                    let f := map (fun v => vmul v (h_trans h)) f in
                    do data <- (if memmap then need (update (counter - initial_cut) f data) else Ok (data ++ [f]));
                    let s' := MkL counter p time data (Some h) (Some lab) in
                    if Nat.ltb (limit + initial_cut) counter then Ok s'
                    else match end_cut with
                         | Some b => if Nat.leb b counter then Ok s'
                                     else lammps_loop file cell initial_cut end_cut limit memmap template fuel s'
                         | None => lammps_loop file cell initial_cut end_cut limit memmap template fuel s'
                         end
                end
          end
      | Some _ => Crash   (* float(b'') *)
      end
  end.
Record lammps_result := MkLR { lr_kind : label_kind; lr_content : content; lr_supercell : mat }.
(** dynaphopy/interface/iofile/trajectory_parsers.py:182-352 *)
Definition read_lammps (file : list L) (cell : mat) (time_step : R) (last : option Z) (initial_cut : nat) (end_cut : option nat)
           (limit : nat) (memmap : bool) (template : option (list R)) : res lammps_result :=
  do st <- lammps_loop file cell initial_cut end_cut limit memmap template (S (List.length file)) (MkL 0 file [] [] None None);
  let time := map (fun t => t * time_step) (l_time st) in
  do (time, data) <- (if memmap then Ok (time, l_data st) else cut_last last time (l_data st));
  match l_hdr st, l_label st with
  | Some h, Some lab => match kind lab with
                        | Unrecognised => Exit
                        | k => Ok (MkLR k (MkContent time data) (h_supercell h))
                        end
  | _, _ => Crash
  end.

(** ---------- dynaphopy/interface/iofile/trajectory_parsers.py:355-483 read_VASP_XDATCAR ---------- *)
Record x_state := MkX { x_counter : nat; x_pos : list L; x_time : list R; x_data : list frame }.
(** dynaphopy/interface/iofile/trajectory_parsers.py:416-465 *)
Fixpoint xdatcar_loop (natoms initial_cut : nat) (end_cut : option nat) (limit : nat) (memmap : bool)
         (template : option (list R)) (fuel : nat) (s : x_state) : res x_state :=
  match fuel with
  | O => Fuel
  | S fuel =>
      let counter := S (x_counter s) in
      match find "Direct configuration" (x_pos s) with
      | None => Ok (MkX counter (x_pos s) (x_time s) (x_data s))
      | Some [] => Crash
      | Some (l :: p) =>
          do t <- need (after_eq l);
          let time := x_time s ++ [t] in
          do data <-
            (if memmap
             then match end_cut with
                  | None | Some O => Exit
                  | Some b => if Nat.leb initial_cut b
                              then Ok (repeat (repeat vzero natoms) (b - initial_cut + 1))
                              else Crash
                  end
             else Ok (x_data s));
          if Nat.ltb counter initial_cut
          then xdatcar_loop natoms initial_cut end_cut limit memmap template fuel (MkX counter p time data)
          else
            let '(rows, p) := read_rows natoms p in
            match make_frame template rows with
            | BadFrame => Crash
            | ShortFrame => if memmap then Ok (MkX counter p time data) else Crash  (* appended, then np.array(data) raises; simplified: not if every step read is that short *)
            | GoodFrame f =>
                do data <- (if memmap then need (update (counter - initial_cut) f data) else Ok (data ++ [f]));
                let s' := MkX counter p time data in
                if Nat.ltb (limit + initial_cut) counter then Ok s'
                else match end_cut with
                     | Some b => if Nat.leb b counter then Ok s'
                                 else xdatcar_loop natoms initial_cut end_cut limit memmap template fuel s'
                     | None => xdatcar_loop natoms initial_cut end_cut limit memmap template fuel s'
                     end
            end
      end
  end.
(** 407-483; the first two lines (comment, scale factor) are skipped *)
Definition read_xdatcar (file : list L) (time_step : R) (last : option Z) (initial_cut : nat) (end_cut : option nat)
           (limit : nat) (memmap : bool) (template : option (list R)) : res (content * mat) :=
  match file with
  | _ :: _ :: a :: b :: c :: _ :: counts :: pos =>
      do a <- need (match fields a with Some r => vec_of r | None => None end);
      do b <- need (match fields b with Some r => vec_of r | None => None end);
      do c <- need (match fields c with Some r => vec_of r | None => None end);
      do ns <- need (all_some (map int (words counts)));
      do st <- xdatcar_loop (list_sum ns) initial_cut end_cut limit memmap template (S (List.length file)) (MkX 0 pos [] []);
      let time := map (fun t => t * time_step) (x_time st) in
      do (time, data) <- (if memmap then Ok (time, x_data st) else cut_last last time (x_data st));
      Ok (MkContent time data, M3 a b c)
  | _ => Crash
  end.
End Readers.
