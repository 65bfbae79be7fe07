(** * Float64: rounding of double precision arithmetic.

    The other model files compute with exact rationals. Here the arithmetic of
    numpy and numexpr on float64 arrays (the values decoded by eccodes are
    float64, readers/grib.py:173; weights are float64) is modelled: every
    operation gives the exact result, rounded to the nearest binary64 number,
    ties to even, and beyond the largest one an infinity. Zero is unsigned and
    there is one NaN. *)
From Verif Require Import Base Num.
Local Open Scope Z_scope.

(** binary magnitude of n/d for n <> 0: the e with 2^(e-1) <= |n/d| < 2^e *)
Definition mag_ratio (n : Z) (d : positive) : Z :=
  let l := Z.log2 (Z.abs n) - Z.log2 (Zpos d) in
  let reaches := if 0 <=? l then Zpos d * 2 ^ l <=? Z.abs n else Zpos d <=? Z.abs n * 2 ^ (- l) in
  if reaches then l + 1 else l.

(** n/d for d > 0, rounded to the nearest integer, ties to even *)
Definition nearest_even (n d : Z) : Z :=
  let f := n / d in
  match 2 * (n mod d) ?= d with
  | Lt => f
  | Gt => f + 1
  | Eq => if Z.even f then f else f + 1
  end.

(** [prec] bits, exponents not below [emin] *)
Definition round_ratio (prec emin : Z) (n : Z) (d : positive) : Q :=
  let e := Z.max (mag_ratio n d - prec) emin in
  if 0 <=? e then inject_Z (nearest_even n (Zpos d * 2 ^ e) * 2 ^ e)
  else Qmake (nearest_even (n * 2 ^ (- e)) (Zpos d)) (Z.to_pos (2 ^ (- e))).

(** binary64: 53 bits, exponents not below -1074 *)
Definition round64 (q : Qc) : Qc := Q2Qc (round_ratio 53 (-1074) (Qnum (this q)) (Qden (this q))).
(** binary32: 24 bits, exponents not below -149 *)
Definition round32 (q : Qc) : Qc := Q2Qc (round_ratio 24 (-149) (Qnum (this q)) (Qden (this q))).

(** 2^1024: a rounded result from here on is infinite *)
Definition overflow64 : Qc := ZQ (2 ^ 1024).

Definition nround (a : num) : num :=
  match a with
  | Fin q => let r := round64 q in
      if Qc_leb overflow64 r then PInf else if Qc_leb r (- overflow64)%Qc then MInf else Fin r
  | _ => a
  end.

Definition fadd (a b : num) : num := nround (nadd a b).
Definition fsub (a b : num) : num := nround (nsub a b).
Definition fmul (a b : num) : num := nround (nmul a b).
Definition fdiv (a b : num) : num := nround (ndiv a b).

(** a float64 number *)
Definition is_float (a : num) : Prop := nround a = a.
