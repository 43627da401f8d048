(** What a user expects of the data segmentation and of the frequency axis. *)
From Verif Require Export ArithModel.
Open Scope Z_scope.

(** [l] covers the samples 0..N-1 with at least two pieces [ini, fin) of equal length *)
Definition good_pieces (N : Z) (l : list (Z * Z)) : Prop :=
  (2 <= length l)%nat /\
  (forall p, In p l -> 0 <= fst p /\ fst p < snd p /\ snd p <= N) /\
  (forall p q, In p l -> In q l -> snd p - fst p = snd q - fst q) /\
  fst (nth 0 l (0, 0)) = 0 /\ snd (last l (0, 0)) = N /\
  (forall k, (S k < length l)%nat -> fst (nth k l (0, 0)) <= fst (nth (S k) l (0, 0)) <= snd (nth k l (0, 0))).

(** the same up to one sample: every piece is in range and not empty, no sample before the last one is missed, the
    lengths differ from [len] by at most one and the last piece ends at N or N-1 *)
Definition good_pieces_up_to_one (N len : Z) (l : list (Z * Z)) : Prop :=
  (2 <= length l)%nat /\
  (forall p, In p l -> 0 <= fst p /\ fst p < snd p /\ snd p <= N) /\
  (forall p, In p l -> Z.abs (snd p - fst p - len) <= 1) /\
  fst (nth 0 l (0, 0)) = 0 /\ snd (nth 0 l (0, 0)) = len /\ N - 1 <= snd (last l (0, 0)) /\
  (forall k, (S k < length l)%nat -> fst (nth k l (0, 0)) <= fst (nth (S k) l (0, 0)) <= snd (nth k l (0, 0))).

(** number of samples per piece: the one matching the resolution, or all the data when they are too few *)
Definition piece_length (N wanted : Z) : Z := if wanted <=? N - 1 then wanted else N.

Open Scope R_scope.
(** equally spaced axis from lo with spacing r, reaching hi and exceeding it by less than r *)
Definition good_axis (lo hi r : R) (l : list R) : Prop :=
  (1 <= length l)%nat /\ (forall k, (k < length l)%nat -> nth k l 0 = lo + INR k * r) /\
  hi <= last l 0 < hi + r.

(** the same with every entry, and both ends, allowed to be off by a rounding error *)
Definition good_axis_up_to (tol lo hi r : R) (l : list R) : Prop :=
  (1 <= length l)%nat /\ nth 0 l 0 = lo /\ (forall k, (k < length l)%nat -> Rabs (nth k l 0 - (lo + INR k * r)) <= tol) /\
  hi - 2 * tol <= last l 0 <= hi + r + 2 * tol.

(** [x] is a finite IEEE binary64 number and [r] the real number it stands for *)
Definition float_is (x : spec_float) (r : R) : Prop :=
  valid_binary 53 1024 x = true /\
  match x with
  | S754_zero _ => r = 0
  | S754_finite s m e => r = (if s then - IZR (Zpos m) else IZR (Zpos m)) * powerRZ 2 e
  | _ => False
  end.
