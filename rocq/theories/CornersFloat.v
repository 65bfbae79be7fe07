(** * CornersFloat: weights of bilinear and triangle interpolation in double
    precision.

    Bilinear.v and Triang.v compute them in real numbers; here every operation
    is rounded. The results of [fsolve] and of the triangulation (the matrix and
    the last corner in [tri.transform]) are given. *)
From Verif Require Import Base Num Float64 Interp Float_Sum.

(** scipy_interpolation_lib.py:1315 and 1496 [np.clip(x, 0, 1)]: NaN stays *)
Definition clip64 (x : num) : num := if nltb x (nint 0) then nint 0 else if nltb (nint 1) x then nint 1 else x.
(** lines 1316-1319 and 1497-1500: the four weights of a quadrilateral, in the
    order of its corners *)
Definition corner_weights64 (a b : num) : list num :=
  [fmul (fsub (nint 1) a) (fsub (nint 1) b); fmul a (fsub (nint 1) b); fmul a b; fmul (fsub (nint 1) a) b].
(** lines 1315-1321: [s] is the result of [fsolve] *)
Definition bilinear_weights64 (s : num * num) : list num := corner_weights64 (clip64 (fst s)) (clip64 (snd s)).

(** lines 1509-1510: [m] holds the rows of [tri.transform], [p] the target point;
    the product of a matrix with a vector may be fused; the third weight is what
    the two others leave *)
Definition triangle_weights64 (m : (num * num) * (num * num) * (num * num)) (p : num * num) (out : list num) : Prop :=
  let '(r0, r1, last) := m in
  let dx := fsub (fst p) (fst last) in let dy := fsub (snd p) (snd last) in
  exists b0 b1, einsum_any [(fst r0, dx); (snd r0, dy)] b0 /\ einsum_any [(fst r1, dx); (snd r1, dy)] b1 /\
    out = [b0; b1; fsub (nint 1) (fadd b0 b1)].
