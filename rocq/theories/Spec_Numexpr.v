(** * Specification vocabulary: conversion formulas *)
From Verif Require Import Base Num Float64 Numexpr.
Local Open Scope Z_scope.

(** the conversions of configuration/global/parameters.json: the text, and
    the factor and the constant of the line it stands for *)
Definition shipped : list (string * (Qc * Qc)) :=
  [("x=x-273.15"%string, (1, - (ZQ 27315 / ZQ 100)));
   ("x=x*1000"%string, (ZQ 1000, 0));
   ("x=1000*x"%string, (ZQ 1000, 0));
   ("x=-x*1000"%string, (- ZQ 1000, 0));
   ("x=x*(-0.0353)"%string, (- (ZQ 353 / ZQ 10000), 0));
   ("x=x*(-0.00147)"%string, (- (ZQ 147 / ZQ 100000), 0))]%Qc.

(** [e] is the number [k], written with or without a sign *)
Inductive number : expr -> Qc -> Prop :=
| number_literal m d p : number (ENum m d p) (ZQ m / ZQ (10 ^ Z.of_nat d))%Qc
| number_neg e k : number e k -> number (ENeg e) (- k)%Qc.

(** [e] holds [x] once, and otherwise numbers that are added, subtracted,
    multiplied or divided by: its value rises with [x] ([up = true]) or falls *)
Inductive monotone (x : string) : bool -> expr -> Prop :=
| mono_var : monotone x true (EVar x)
| mono_neg up e : monotone x up e -> monotone x (negb up) (ENeg e)
| mono_add_l up e c k : monotone x up e -> number c k -> monotone x up (EBin Add e c)
| mono_add_r up e c k : monotone x up e -> number c k -> monotone x up (EBin Add c e)
| mono_sub_l up e c k : monotone x up e -> number c k -> monotone x up (EBin Sub e c)
| mono_sub_r up e c k : monotone x up e -> number c k -> monotone x (negb up) (EBin Sub c e)
| mono_mul_l up e c k : monotone x up e -> number c k -> (0 <= k)%Qc -> monotone x up (EBin Mul e c)
| mono_mul_l' up e c k : monotone x up e -> number c k -> (k <= 0)%Qc -> monotone x (negb up) (EBin Mul e c)
| mono_mul_r up e c k : monotone x up e -> number c k -> (0 <= k)%Qc -> monotone x up (EBin Mul c e)
| mono_mul_r' up e c k : monotone x up e -> number c k -> (k <= 0)%Qc -> monotone x (negb up) (EBin Mul c e)
| mono_div up e c k : monotone x up e -> number c k -> (0 < k)%Qc -> monotone x up (EBin Div e c)
| mono_div' up e c k : monotone x up e -> number c k -> (k < 0)%Qc -> monotone x (negb up) (EBin Div e c).

(** [a] and [b] are in this order if [up], in the other one if not *)
Definition in_order (up : bool) (a b : Qc) : Prop := if up then (a <= b)%Qc else (b <= a)%Qc.
