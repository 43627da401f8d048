(** What the element data mean, independently of how the constructor computes it. *)
From Verif Require Import ElementsModel.
From Coq Require Import List.
Open Scope R_scope.

(** the table says that the element with symbol e has number n and mass m *)
Definition tabulated (e : string) (n : nat) (m : R) : Prop := exists name z, In (n, e, name, z) atom_data /\ m = IZR z / 100000000.
(** two masses print alike with one decimal *)
Definition same_digits (x y : R) : Prop := tenths x = tenths y.
(** the mass x tells the element e: it prints as the positive mass the table gives for e *)
Definition tells (x : R) (e : string) : Prop := exists n m, tabulated e n m /\ 0 < m /\ same_digits x m.
(** the element e has no mass in the table *)
Definition massless (e : string) : Prop := exists n, tabulated e n 0.
(** standard atomic weights (IUPAC), in thousandths, of the elements that have one; typed independently of the program's table *)
Definition standard_weights : list (string * Z) :=
  [("H", 1008%Z); ("He", 4003%Z); ("Li", 6940%Z); ("Be", 9012%Z); ("B", 10810%Z); ("C", 12011%Z); ("N", 14007%Z); ("O", 15999%Z);
   ("F", 18998%Z); ("Ne", 20180%Z); ("Na", 22990%Z); ("Mg", 24305%Z); ("Al", 26982%Z); ("Si", 28085%Z); ("P", 30974%Z); ("S", 32060%Z);
   ("Cl", 35450%Z); ("Ar", 39948%Z); ("K", 39098%Z); ("Ca", 40078%Z); ("Sc", 44956%Z); ("Ti", 47867%Z); ("V", 50942%Z); ("Cr", 51996%Z);
   ("Mn", 54938%Z); ("Fe", 55845%Z); ("Co", 58933%Z); ("Ni", 58693%Z); ("Cu", 63546%Z); ("Zn", 65380%Z); ("Ga", 69723%Z); ("Ge", 72630%Z);
   ("As", 74922%Z); ("Se", 78971%Z); ("Br", 79904%Z); ("Kr", 83798%Z); ("Rb", 85468%Z); ("Sr", 87620%Z); ("Y", 88906%Z); ("Zr", 91224%Z);
   ("Nb", 92906%Z); ("Mo", 95950%Z); ("Ru", 101070%Z); ("Rh", 102906%Z); ("Pd", 106420%Z); ("Ag", 107868%Z); ("Cd", 112414%Z); ("In", 114818%Z);
   ("Sn", 118710%Z); ("Sb", 121760%Z); ("Te", 127600%Z); ("I", 126904%Z); ("Xe", 131293%Z); ("Cs", 132905%Z); ("Ba", 137327%Z); ("La", 138905%Z);
   ("Ce", 140116%Z); ("Pr", 140908%Z); ("Nd", 144242%Z); ("Sm", 150360%Z); ("Eu", 151964%Z); ("Gd", 157250%Z); ("Tb", 158925%Z); ("Dy", 162500%Z);
   ("Ho", 164930%Z); ("Er", 167259%Z); ("Tm", 168934%Z); ("Yb", 173045%Z); ("Lu", 174967%Z); ("Hf", 178490%Z); ("Ta", 180948%Z); ("W", 183840%Z);
   ("Re", 186207%Z); ("Os", 190230%Z); ("Ir", 192217%Z); ("Pt", 195084%Z); ("Au", 196967%Z); ("Hg", 200592%Z); ("Tl", 204380%Z); ("Pb", 207200%Z);
   ("Bi", 208980%Z); ("Th", 232038%Z); ("Pa", 231036%Z); ("U", 238029%Z)].
(** labels are types by element: equal exactly for atoms of the same element *)
Definition labels_elements (numbers labels : list nat) : Prop :=
  List.length labels = List.length numbers /\
  forall i j, (i < List.length numbers)%nat -> (j < List.length numbers)%nat -> (nth i labels O = nth j labels O <-> nth i numbers O = nth j numbers O).
(** number of unit cells in a supercell: the absolute value of the determinant of its matrix *)
Definition cells_in (m : Z * Z * Z * (Z * Z * Z) * (Z * Z * Z)) : Z :=
  let '((a, b, c), (d, e, f), (g, h, i)) := m in Z.abs (a * (e * i - f * h) - b * (d * i - f * g) + c * (d * h - e * g)).
Definition diagonal (m : Z * Z * Z * (Z * Z * Z) * (Z * Z * Z)) : Prop :=
  let '((a, b, c), (d, e, f), (g, h, i)) := m in (b = 0 /\ c = 0 /\ d = 0 /\ f = 0 /\ g = 0 /\ h = 0 /\ 0 < a /\ 0 < e /\ 0 < i)%Z.
(** the written list gives, type after type, the first atom of the type *)
Definition one_per_type (types written : list nat) : Prop :=
  List.length written = List.length (nodup Nat.eq_dec types) /\
  forall t, (t < List.length written)%nat ->
    nth_error types (nth t written O) = Some t /\ forall k, (k < nth t written O)%nat -> nth_error types k <> Some t.
