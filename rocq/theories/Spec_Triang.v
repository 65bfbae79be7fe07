(** * Spec_Triang: triangulations and rows of tables, independent of the code *)
From Coq Require Import List Reals ZArith Permutation.
From Verif Require Import Spec_Bilinear.
Import ListNotations.
Local Open Scope R_scope.

(** corners of a triangle given by the indexes of points *)
Definition corners_of (pts : list plane) (s : list Z) (a b c : plane) : Prop :=
  exists i j k, s = [Z.of_nat i; Z.of_nat j; Z.of_nat k] /\ nth_error pts i = Some a /\ nth_error pts j = Some b /\ nth_error pts k = Some c.
Definition dot (u v : plane) : R := fst u * fst v + snd u * snd v.
Definition minus (u v : plane) : plane := (fst u - fst v, snd u - snd v).
(** rows r0, r1 of the inverse of the matrix with columns a - c and b - c *)
Definition inverse_rows (a b c r0 r1 : plane) : Prop :=
  dot r0 (minus a c) = 1 /\ dot r0 (minus b c) = 0 /\ dot r1 (minus a c) = 0 /\ dot r1 (minus b c) = 1.
(** strictly inside the circle through the corners of a triangle *)
Definition in_circle (a b c d : plane) : Prop :=
  let q u := fst (minus u d) * fst (minus u d) + snd (minus u d) * snd (minus u d) in
  let x u := fst (minus u d) in let y u := snd (minus u d) in
  0 < area2 a b c * (q a * (x b * y c - y b * x c) - q b * (x a * y c - y a * x c) + q c * (x a * y b - y a * x b)).
(** a Delaunay triangulation: triangles of points, no point within a circle, the
    triangle of a point, its affine transformation, and the triangles beyond the
    sides, which share the two other corners. (That the triangles cover the convex
    hull is not used.) *)
Definition is_delaunay (pts : list plane) (simplices neighbors : list (list Z)) (find : plane -> Z) (transform : list (plane * plane * plane)) : Prop :=
  simplices <> [] /\ length neighbors = length simplices /\ length transform = length simplices /\
  (forall s, In s simplices -> exists a b c, corners_of pts s a b c /\ area2 a b c <> 0 /\ forall d, In d pts -> ~ in_circle a b c d) /\
  (forall n s, nth_error simplices n = Some s -> exists a b c r0 r1, corners_of pts s a b c /\ nth_error transform n = Some (r0, r1, c) /\ inverse_rows a b c r0 r1) /\
  (forall p, (find p = (-1)%Z /\ forall s a b c, In s simplices -> corners_of pts s a b c -> ~ in_hull p [a; b; c]) \/
             (exists n s a b c, find p = Z.of_nat n /\ nth_error simplices n = Some s /\ corners_of pts s a b c /\ in_hull p [a; b; c])) /\
  (forall n nbs, nth_error neighbors n = Some nbs -> length nbs = 3%nat /\
     forall k nb, nth_error nbs k = Some nb -> nb = (-1)%Z \/
       exists m s s' v v', nb = Z.of_nat m /\ m <> n /\ nth_error simplices n = Some s /\ nth_error simplices m = Some s' /\
         nth_error s k = Some v /\ In v' s' /\ ~ In v' s /\ ~ In v s' /\ (forall x, In x s -> x <> v -> In x s')).

(** Mercator ordinate of a latitude in degrees: the integral of 1/cos *)
Definition mercator (lat : R) : R := ln ((1 + sin (rad lat)) / cos (rad lat)).

(** a row of three or four weights is exact for all affine functions of the
    ordinate [scale lat] and the longitude; points may be drawn after full turns *)
Definition exact_row (lats lons : list R) (scale : R -> R) (lat lon : R) (ws : list R) (idx : list Z) : Prop :=
  length ws = length idx /\ exists ps : list plane,
    Forall2 (fun i p => exists n la lo, i = Z.of_nat n /\ nth_error lats n = Some la /\ nth_error lons n = Some lo /\ fst p = scale la /\ full_turns lo (snd p)) idx ps /\
    forall a b c, interpolated ws (map (affine a b c) ps) = affine a b c (scale lat, lon).
(** all cells of a row of the target have the same latitude *)
Definition on_parallels (target : list (list plane)) : Prop := forall row p q, In row target -> In p row -> In q row -> fst p = fst q.
