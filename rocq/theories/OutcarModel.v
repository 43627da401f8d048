(** Model of read_from_file_structure_outcar, dynaphopy/interface/iofile/__init__.py:168-259.

    The file is its bytes; the memory map is the bytes with a position.  Simplified: the conversions of bytes to numbers are functions
    (None: ValueError); the reciprocal cell and the fractional positions are read but not used (a line that is too short or not numeric would raise
    there as well: modelled); the file has to exist; the block under "if False" is left out. *)
From Coq Require Export List Ascii String Arith ZArith Lia.
Export ListNotations.
Open Scope nat_scope.

Definition bytes := list ascii.
Definition of_string (s : string) : bytes := list_ascii_of_string s.
Definition newline : ascii := "010"%char.
(** the white space of bytes.split(): space, \t, \n, \v, \f, \r *)
Definition blank (c : ascii) : bool := let n := nat_of_ascii c in (Nat.eqb n 32 || (Nat.leb 9 n && Nat.leb n 13))%bool.
Fixpoint starts_with (pat t : bytes) : bool :=
  match pat, t with [] , _ => true | a :: pat, b :: t => if ascii_dec a b then starts_with pat t else false | _ :: _, [] => false end.
Fixpoint search (pat t : bytes) (i : nat) : option nat :=
  if starts_with pat t then Some i else match t with [] => None | _ :: t => search pat t (S i) end.
(** bytes.split() *)
Fixpoint split_from (w t : bytes) : list bytes :=
  match t with
  | [] => match w with [] => [] | _ => [rev w] end
  | c :: t => if blank c then match w with [] => split_from [] t | _ => rev w :: split_from [] t end else split_from (c :: w) t
  end.
Definition split (t : bytes) : list bytes := split_from [] t.
(** the bytes up to and including the next newline *)
Fixpoint line_of (t : bytes) : bytes := match t with [] => [] | c :: t => if ascii_dec c newline then [c] else c :: line_of t end.

Section Reader.
Context {X : Type} (read_int : bytes -> option nat) (read_float : bytes -> option X).
Context (file : bytes).
(** mmap.find(pat): the lowest index not before the position, -1 when there is none; the position stays *)
Definition find (pat : bytes) (pos : nat) : Z := match search pat (skipn pos file) pos with Some i => Z.of_nat i | None => (-1)%Z end.
(** mmap.seek(p); ValueError outside of the file *)
Definition seek (p : Z) : option nat := if ((0 <=? p) && (p <=? Z.of_nat (List.length file)))%Z%bool then Some (Z.to_nat p) else None.
(** mmap.readline() and mmap.read(n): the bytes and the new position *)
Definition readline (pos : nat) : bytes * nat := let l := line_of (skipn pos file) in (l, pos + List.length l).
Definition read (n pos : nat) : bytes * nat := let l := firstn n (skipn pos file) in (l, pos + List.length l).
Definition keyword (s : string) (offset : Z) (pos : nat) : option nat := seek (find (of_string s) pos + offset)%Z.

Fixpoint all_some {Y} (l : list (option Y)) : option (list Y) :=
  match l with [] => Some [] | Some x :: l => option_map (cons x) (all_some l) | None :: _ => None end.
(** np.array(words, dtype=int), and dtype='double' *)
Definition ints (l : list bytes) : option (list nat) := all_some (map read_int l).
Definition floats (l : list bytes) : option (list X) := all_some (map read_float l).
(** [n] lines, of each the words a .. b-1 *)
Fixpoint table (a b n pos : nat) : list (list bytes) * nat :=
  match n with
  | O => ([], pos)
  | S n => let '(l, pos) := readline pos in let '(r, pos) := table a b n pos in (firstn (b - a) (skipn a (split l)) :: r, pos)
  end.
(** np.array(rows, dtype='double'): None when a word is no number or the rows have different lengths *)
Definition matrix (rows : list (list bytes)) : option (list (list X)) :=
  match all_some (map floats rows) with
  | Some m => if forallb (fun r => Nat.eqb (List.length r) (match m with [] => 0 | r0 :: _ => List.length r0 end)) m then Some m else None
  | None => None
  end.
(** dynaphopy/interface/iofile/__init__.py:217-221: one fixed column of six bytes for each type; the position is where the last reading ended *)
Fixpoint columns (start i n pos : nat) : option (list bytes * nat) :=
  match n with
  | O => Some ([], pos)
  | S n => match seek (Z.of_nat start + 9 + 6 * Z.of_nat i)%Z with
           | Some p => let '(w, p) := read 6 p in match columns start (S i) n p with Some (r, q) => Some (w :: r, q) | None => None end
           | None => None
           end
  end.
(** dynaphopy/interface/iofile/__init__.py:222-224 *)
Fixpoint per_atom {Y} (masses : list Y) (counts : list nat) : list Y :=
  match masses, counts with m :: ms, c :: cs => repeat m c ++ per_atom ms cs | _, _ => [] end.

Record structure := MkS { s_cell : list (list X); s_positions : list (list X); s_masses : list X }.
Definition bind {A B} (x : option A) (f : A -> option B) : option B := match x with Some a => f a | None => None end.
Local Notation "x <- e ;; f" := (bind e (fun x => f)) (at level 61, right associativity).
(** 168-259; None: an exception.  Simplified: a file without POMASS = (start -1: the masses are read from byte 8 on) fails. *)
Definition read_structure : option structure :=
  p <- keyword "NIONS =" 7 0 ;;
  let '(l, p) := readline p in
  n <- read_int l ;;
  p <- keyword "ions per type" 15 p ;;
  let '(l, p) := readline p in
  counts <- ints (split l) ;;
  let start := find (of_string "POMASS =") p in
  cp <- (if (start <? 0)%Z then None else columns (Z.to_nat start) 0 (List.length counts) p) ;;
  let '(cols, p) := cp in
  masses <- floats (per_atom cols counts) ;;
  d <- keyword "direct lattice vectors" 0 p ;;
  let '(_, p) := readline d in
  cell <- matrix (fst (table 0 3 3 p)) ;;
  let '(_, p) := readline d in
  let '(rows, p) := table 3 6 3 p in
  reciprocal <- matrix rows ;;
  p <- keyword "position of ions in fractional coordinates" 0 p ;;
  let '(_, p) := readline p in
  let '(rows, p) := table 0 3 n p in
  fractional <- matrix rows ;;
  p <- keyword "position of ions in cartesian coordinates" 0 p ;;
  let '(_, p) := readline p in
  positions <- matrix (fst (table 0 3 n p)) ;;
  Some (MkS cell positions masses).
End Reader.
Arguments structure : clear implicits.
