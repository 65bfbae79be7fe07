(** * Specification vocabulary: rounding in interpolation *)
From Coq Require Import Qcabs.
From Verif Require Import Base Num Float64 Spec_Aggregation.
Local Open Scope Z_scope.

(** a binary64 number of at most 2^k *)
Definition double (k : Z) (q : Qc) : Prop := round64 q = q /\ (Qcabs q <= ZQ (2 ^ k))%Qc.
(** sum of the products, and of their absolute values *)
Definition dot (w v : list Qc) : Qc := Qsum (map (fun p => fst p * snd p)%Qc (combine w v)).
Definition dot_abs (w v : list Qc) : Qc := Qsum (map (fun p => Qcabs (fst p * snd p))%Qc (combine w v)).
Definition count {A} (l : list A) : Qc := ZQ (Z.of_nat (List.length l)).
(** 1 / 2^k *)
Definition half_to (k : Z) : Qc := (/ ZQ (2 ^ k))%Qc.
(** at most 2^20 entries, at least one *)
Definition short {A} (l : list A) : Prop := 1 <= Z.of_nat (List.length l) <= 2 ^ 20.
