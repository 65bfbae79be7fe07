(** * Specification vocabulary: positions in a quadrilateral or a triangle *)
From Coq Require Import Qcabs.
From Verif Require Import Base Num Float64 Spec_Aggregation.
Local Open Scope Qc_scope.

(** the number of [0,1] nearest to [x] *)
Definition nearest01 (x c : Qc) : Prop := (x <= 0 -> c = 0) /\ (1 <= x -> c = 1) /\ (0 <= x <= 1 -> c = x).
(** the exact weights of the corners at the position (a,b) *)
Definition corner_shares (a b : Qc) : list Qc := [(1 - a) * (1 - b); a * (1 - b); a * b; (1 - a) * b].
(** the point with the given weights *)
Definition point_of (w : list Qc) (t : list (Qc * Qc)) : Qc * Qc :=
  (Qsum (map (fun p => fst p * fst (snd p)) (combine w t)), Qsum (map (fun p => fst p * snd (snd p)) (combine w t))).
(** [p] is inside the triangle [t] or on its border *)
Definition in_triangle (t : list (Qc * Qc)) (p : Qc * Qc) : Prop :=
  exists w, List.length t = 3%nat /\ List.length w = 3%nat /\ Forall (fun x => 0 <= x) w /\ Qsum w = 1 /\ point_of w t = p.
(** the matrix of the triangle with corners [a], [b], [c], each entry the binary64
    number nearest to that of the inverse of [a-c, b-c] *)
Definition nearest_matrix (a b c : Qc * Qc) (r0 r1 : Qc * Qc) : Prop :=
  exists i00 i01 i10 i11,
    i00 * (fst a - fst c) + i01 * (snd a - snd c) = 1 /\ i00 * (fst b - fst c) + i01 * (snd b - snd c) = 0 /\
    i10 * (fst a - fst c) + i11 * (snd a - snd c) = 0 /\ i10 * (fst b - fst c) + i11 * (snd b - snd c) = 1 /\
    r0 = (round64 i00, round64 i01) /\ r1 = (round64 i10, round64 i11).
