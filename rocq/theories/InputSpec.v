(** Specification of DynaPhoPy input files, independent of the reader: what a file says. *)
From Coq Require Export Ascii String Reals ZArith List.
Export ListNotations.
Open Scope string_scope.

Definition occurs (key line : string) : Prop := exists a b, line = a ++ key ++ b.
Definition keywords : list string :=
  ["STRUCTURE FILE OUTCAR"; "STRUCTURE FILE POSCAR"; "FORCE SETS"; "FORCE CONSTANTS"; "PRIMITIVE MATRIX"; "SUPERCELL MATRIX"; "BANDS"; "MESH PHONOPY"].
(** a line that mentions no keyword; a comment; a line that mentions exactly one keyword *)
Definition plain (line : string) : Prop := forall k, In k keywords -> ~ occurs k line.
Definition comment (line : string) : Prop := exists s, line = String "#" s.
Definition mentions (key line : string) : Prop := occurs key line /\ (forall k, In k keywords -> occurs k line -> k = key) /\ ~ comment line.

Fixpoint chars (s : string) : list ascii := match s with EmptyString => [] | String c t => c :: chars t end.
Definition blank (c : ascii) : Prop := let n := nat_of_ascii c in (9 <= n <= 13)%nat \/ (28 <= n <= 32)%nat.
Definition has_char (c : ascii) (s : string) : Prop := In c (chars s).
(** [ws] are the words of [line], separated by characters of [sep] *)
Inductive worded (sep : ascii -> Prop) : string -> list string -> Prop :=
| w_end : worded sep "" []
| w_sep c s ws : sep c -> worded sep s ws -> worded sep (String c s) ws
| w_last w : w <> "" -> Forall (fun c => ~ sep c) (chars w) -> worded sep w [w]
| w_word w c s ws : w <> "" -> Forall (fun c => ~ sep c) (chars w) -> sep c -> worded sep s ws -> worded sep (w ++ String c s) (w :: ws).
(** a line made of words that are the numbers xs *)
Definition spells {X} (read : string -> option X) (sep : ascii -> Prop) (line : string) (xs : list X) : Prop :=
  exists ws, worded sep line ws /\ Forall2 (fun w x => read w = Some x) ws xs.
Definition blank_or_comma (c : ascii) : Prop := blank c \/ c = ","%char.
(** name with blanks around it *)
Definition padded (line name : string) : Prop :=
  exists a b, line = a ++ name ++ b /\ Forall blank (chars a) /\ Forall blank (chars b) /\
  (name = "" \/ (exists c s, name = String c s /\ ~ blank c) /\ (exists s c, name = s ++ String c "" /\ ~ blank c)).
(** a label with space characters around it *)
Definition space_padded (text label : string) : Prop :=
  exists a b, text = a ++ label ++ b /\ Forall (eq " "%char) (chars a) /\ Forall (eq " "%char) (chars b) /\ ~ has_char " " label.

(** what one part of the file says *)
Inductive entry :=
  | Nothing | File (key name : string) | Primitive (m : list (list R)) | Supercell (m : list (list Z))
  | Bands (rows : list (list R)) (labels : option (list (string * string))) | Mesh (m : list Z).
Definition file_keywords : list string := ["STRUCTURE FILE OUTCAR"; "STRUCTURE FILE POSCAR"; "FORCE SETS"; "FORCE CONSTANTS"].
Section Format.
Context (num : string -> option R) (int : string -> option Z).
Definition band_row (line : string) (xs : list R) : Prop := List.length xs = 6%nat /\ ~ has_char ":" line /\ spells num blank_or_comma line xs.
Definition labelled_row (line : string) (x : list R * (string * string)) : Prop :=
  exists a la lb, line = a ++ String ":" (la ++ String "," lb) /\ band_row a (fst x) /\
  (forall c, c = ":"%char \/ c = ","%char -> ~ has_char c la /\ ~ has_char c lb) /\ space_padded la (fst (snd x)) /\ space_padded lb (snd (snd x)).
Definition square {X} (m : list (list X)) : Prop := Forall (fun r => List.length r = 3%nat) m.
Inductive block : entry -> list string -> Prop :=
| b_nothing l : comment l \/ plain l -> block Nothing [l]
| b_file key k v name : In key file_keywords -> mentions key k -> plain v -> padded v name -> block (File key name) [k; v]
| b_primitive k a b c m : mentions "PRIMITIVE MATRIX" k -> Forall plain [a; b; c] -> Forall2 (spells num blank) [a; b; c] m -> square m -> block (Primitive m) [k; a; b; c]
| b_supercell k a b c m : mentions "SUPERCELL MATRIX" k -> Forall plain [a; b; c] -> Forall2 (spells int blank) [a; b; c] m -> square m -> block (Supercell m) [k; a; b; c]
| b_bands k ls rows : mentions "BANDS" k -> Forall plain ls -> Forall2 band_row ls rows -> block (Bands rows None) (k :: ls)
| b_labelled k ls rows : rows <> [] -> mentions "BANDS" k -> Forall plain ls -> Forall2 labelled_row ls rows ->
    block (Bands (map fst rows) (Some (map snd rows))) (k :: ls)
| b_mesh k v m : mentions "MESH PHONOPY" k -> plain v -> spells int blank v m -> block (Mesh m) [k; v].
(** a line after a list of bands that cannot be taken for one more band *)
Definition no_band (l : string) : Prop := ~ has_char ":" l /\ forall xs, List.length xs = 6%nat -> ~ spells num blank_or_comma l xs.
(** [ok] is what is asked of the line that follows a list of bands *)
Inductive layout (ok : string -> Prop) : list entry -> list string -> Prop :=
| l_nil : layout ok [] []
| l_cons e b es f : block e b -> layout ok es f -> (forall rows labels l r, e = Bands rows labels -> f = l :: r -> ok l) -> layout ok (e :: es) (b ++ f).
End Format.

(** the last entry selected by [f] *)
Fixpoint last_of {X} (f : entry -> option X) (es : list entry) : option X :=
  match es with [] => None | e :: es => match last_of f es with Some x => Some x | None => f e end end.
Definition file_named (key : string) (e : entry) : option string := match e with File k n => if string_dec k key then Some n else None | _ => None end.
Definition primitive_of e := match e with Primitive m => Some m | _ => None end.
Definition supercell_of e := match e with Supercell m => Some m | _ => None end.
Definition bands_of e := match e with Bands rows labels => Some (rows, labels) | _ => None end.
Definition mesh_of e := match e with Mesh m => Some m | _ => None end.
