(** The arithmetic used by the Python code: an interface with two instances, exact real arithmetic
    and IEEE binary64 (SpecFloat, round to nearest even). *)
From Coq Require Export ZArith List Reals SpecFloat Bool.
From Verif Require Export Rounding.
Export ListNotations.
Open Scope Z_scope.

Record arith := MkArith {
  num : Type;
  of_int : Z -> num;                       (* int -> float *)
  add : num -> num -> num; sub : num -> num -> num; mul : num -> num -> num; div : num -> num -> num;
  trunc : num -> option Z;                 (* int(x): towards zero; None for inf/nan *)
  ceiling : num -> option Z;               (* math.ceil / numpy.arange length *)
  rnd : num -> option Z                    (* round(x): half to even *)
}.
Arguments of_int {_}. Arguments add {_}. Arguments sub {_}. Arguments mul {_}. Arguments div {_}.
Arguments trunc {_}. Arguments ceiling {_}. Arguments rnd {_}.

(** exact arithmetic *)
Definition exact : arith := MkArith R IZR Rplus Rminus Rmult Rdiv
  (fun x => Some (if Rle_dec 0 x then rfloor x else - rfloor (- x)))
  (fun x => Some (rceil x)) (fun x => Some (around x)).

(** binary64 *)
Definition sf_of_Z (z : Z) : spec_float := binary_normalize 53 1024 z 0 false.
(* magnitude m*2^e as integer quotient and remainder/denominator *)
Definition sf_parts (m : positive) (e : Z) : Z * Z * Z :=
  if 0 <=? e then (Zpos m * 2 ^ e, 0, 1) else (Zpos m / 2 ^ (- e), Zpos m mod 2 ^ (- e), 2 ^ (- e)).
Definition signed (s : bool) (z : Z) : Z := if s then - z else z.
Definition sf_trunc (x : spec_float) : option Z :=
  match x with
  | S754_zero _ => Some 0
  | S754_finite s m e => let '(q, r, d) := sf_parts m e in Some (signed s q)
  | _ => None
  end.
Definition sf_ceil (x : spec_float) : option Z :=
  match x with
  | S754_zero _ => Some 0
  | S754_finite s m e => let '(q, r, d) := sf_parts m e in
      Some (if s then - q else if r =? 0 then q else q + 1)
  | _ => None
  end.
Definition sf_round (x : spec_float) : option Z :=
  match x with
  | S754_zero _ => Some 0
  | S754_finite s m e => let '(q, r, d) := sf_parts m e in
      Some (signed s (match 2 * r ?= d with Lt => q | Gt => q + 1 | Eq => if Z.even q then q else q + 1 end))
  | _ => None
  end.
Definition binary64 : arith := MkArith spec_float sf_of_Z
  (SFadd 53 1024) (SFsub 53 1024) (SFmul 53 1024) (SFdiv 53 1024) sf_trunc sf_ceil sf_round.

Definition obind {A B} (o : option A) (f : A -> option B) : option B := match o with Some a => f a | None => None end.
Fixpoint omap_list {A B} (f : A -> option B) (l : list A) : option (list B) :=
  match l with [] => Some [] | a :: l => obind (f a) (fun b => obind (omap_list f l) (fun r => Some (b :: r))) end.
(** range(n) *)
Definition zrange (n : Z) : list Z := map Z.of_nat (seq 0 (Z.to_nat n)).
