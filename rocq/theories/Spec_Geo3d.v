(** * Spec_Geo3d: points on a sphere and great-circle distances *)
From Coq Require Import Reals.
Local Open Scope R_scope.
Definition dot3 (p q : R * R * R) : R := let '(a, b, c) := p in let '(a', b', c') := q in a * a' + b * b' + c * c'.
Definition dist3 (p q : R * R * R) : R := let '(a, b, c) := p in let '(a', b', c') := q in sqrt ((a - a') ^ 2 + (b - b') ^ 2 + (c - c') ^ 2).
Definition on_sphere (r : R) (p : R * R * R) : Prop := dot3 p p = r ^ 2.
Definition degrees (x : R) : R := x * PI / 180.
(** the angle between two places seen from the centre of the earth: the great
    circle distance is the radius times this angle (spherical law of cosines) *)
Definition central_angle (lon lat lon' lat' gamma : R) : Prop :=
  0 <= gamma <= PI /\
  cos gamma = sin (degrees lat) * sin (degrees lat') + cos (degrees lat) * cos (degrees lat') * cos (degrees lon - degrees lon').
