(** * Spec_Bilinear: plane geometry and interpolation rows, independent of the code *)
From Coq Require Import List Reals Permutation Sorting ZArith Lra.
Import ListNotations.
Local Open Scope R_scope.

(** points of the plane of latitude and longitude *)
Definition plane := (R * R)%type.
(** twice the signed area of a triangle *)
Definition area2 (a b c : plane) : R := (fst b - fst a) * (snd c - snd a) - (snd b - snd a) * (fst c - fst a).
(** four corners in cyclic order, all turns strictly to the same side *)
Definition strictly_convex (a b c d : plane) : Prop :=
  (0 < area2 a b c /\ 0 < area2 b c d /\ 0 < area2 c d a /\ 0 < area2 d a b) \/
  (area2 a b c < 0 /\ area2 b c d < 0 /\ area2 c d a < 0 /\ area2 d a b < 0).
(** weighted mean of points *)
Fixpoint combination (ws : list R) (ps : list plane) : plane :=
  match ws, ps with
  | w :: ws', p :: ps' => let r := combination ws' ps' in (w * fst p + fst r, w * snd p + snd r)
  | _, _ => (0, 0)
  end.
Fixpoint total (ws : list R) : R := match ws with [] => 0 | w :: ws' => w + total ws' end.
Definition convex_weights (ws : list R) : Prop := Forall (fun w => 0 <= w) ws /\ total ws = 1.
(** points within the polygon with these corners *)
Definition in_hull (p : plane) (ps : list plane) : Prop := exists ws, length ws = length ps /\ convex_weights ws /\ combination ws ps = p.
(** an affine function of latitude and longitude *)
Definition affine (a b c : R) (p : plane) : R := a * fst p + b * snd p + c.
(** interpolated value *)
Fixpoint interpolated (ws vs : list R) : R := match ws, vs with w :: ws', v :: vs' => w * v + interpolated ws' vs' | _, _ => 0 end.

(** a valid answer of argsort *)
Definition is_argsort (keys : list R) (o : list nat) : Prop :=
  Permutation (seq 0 (length keys)) o /\ StronglySorted (fun i j => nth i keys 0 <= nth j keys 0) o.

(** the same place of the earth: equal points of the unit sphere *)
Definition rad (x : R) : R := x * PI / 180.
Definition same_place_on_earth (lat lon lat' lon' : R) : Prop :=
  cos (rad lat) * cos (rad lon) = cos (rad lat') * cos (rad lon') /\
  cos (rad lat) * sin (rad lon) = cos (rad lat') * sin (rad lon') /\
  sin (rad lat) = sin (rad lat').

(** how a place may be drawn in the plane around a target at longitude [lo]: at
    most a quarter turn away, after full turns of longitude, or continued beyond
    the pole of its hemisphere *)
Definition full_turns (a b : R) : Prop := exists k : Z, b = a + 360 * IZR k.
Definition seen_from (lo lat lon : R) (p : plane) : Prop :=
  Rabs (lo - snd p) <= 90 /\
  ((fst p = lat /\ full_turns lon (snd p)) \/
   (((0 < lat /\ fst p = 180 - lat) \/ (lat < 0 /\ fst p = - 180 - lat)) /\ full_turns (lon + 180) (snd p))).

(** a KD-tree over points of space: the indexes of the nearest points first, and
    the number of points in place of missing ones *)
Definition space := (R * R * R)%type.
Definition chord (p q : space) : R := let '(a, b, c) := p in let '(a', b', c') := q in sqrt ((a - a') ^ 2 + (b - b') ^ 2 + (c - c') ^ 2).
Definition sphere (lat lon : R) : space := (cos (rad lat) * cos (rad lon), cos (rad lat) * sin (rad lon), sin (rad lat)).
Definition kdtree (pts : list space) (query : space -> nat -> list Z) : Prop := forall p k, exists o,
  Permutation (seq 0 (length pts)) o /\ StronglySorted (fun i j => chord p (nth i pts (0, 0, 0)) <= chord p (nth j pts (0, 0, 0))) o /\
  query p k = map Z.of_nat (firstn k o) ++ repeat (Z.of_nat (length pts)) (k - length pts).
