(** * Spec_Adw: textbook formulas for angular distance weights and correlation
    distance decay *)
From Verif Require Import Base Xr.
From Coq Require Import Sorting.Sorted Sorting.Permutation.
Local Open Scope R_scope.

Definition at_ (l : list R) (i : nat) : R := nth i l 0.
(** number of points within a radius *)
Fixpoint within (r : R) (ds : list R) : nat := match ds with [] => O | d :: l => ((if Rle_dec d r then 1 else 0) + within r l)%nat end.
(** the radius: the fifth distance if fewer than [lo] points are within the
    reference radius, the eleventh if [hi] or more are, the reference radius
    otherwise. Shepard 1968 and the comments of the code: lo = 5, hi = 11 *)
Definition radius_rule (lo hi : nat) (ref : R) (ds : list R) (r : R) : Prop :=
  ((within ref ds < lo)%nat -> r = at_ ds 4) /\ ((lo <= within ref ds < hi)%nat -> r = ref) /\ ((hi <= within ref ds)%nat -> r = at_ ds 10).
(** the distance function of Shepard *)
Definition shepard_fun (r d s : R) : Prop :=
  (d <= r / 3 -> s = / d) /\ (r / 3 < d <= r -> s = 27 / (4 * r) * (d / r - 1) ^ 2) /\ (r < d -> s = 0).
(** cosine of the angle between two directions *)
Definition len (a : R * R) : R := sqrt (fst a ^ 2 + snd a ^ 2).
Definition cosine (a b : R * R) : R := (fst a * fst b + snd a * snd b) / (len a * len b).
(** sum over all j < k other than i *)
Definition sum_but (i k : nat) (f : nat -> R) : R := rsum (map (fun j => if Nat.eqb j i then 0 else f j) (seq 0 k)).
(** directional weight of neighbour [i]: 1 when it is not defined *)
Definition directional (diffs : list (R * R)) (s : list R) (i : nat) (t : R) : Prop :=
  let k := List.length diffs in
  let den := sum_but i k (at_ s) in
  let num := sum_but i k (fun j => (1 - cosine (nth i diffs (0, 0)) (nth j diffs (0, 0))) * at_ s j) in
  ((forall j, (j < k)%nat -> 0 < len (nth j diffs (0, 0))) -> 0 < den -> t = num / den) /\
  ((exists j, (j < k)%nat /\ len (nth j diffs (0, 0)) = 0) \/ den = 0 -> t = 1).
(** weights that are not negative and sum to one *)
Definition convex (ws : list R) : Prop := (forall w, In w ws -> 0 <= w) /\ rsum ws = 1.

(** the [k] closest of [n] source points, over the reals *)
Definition closestR {Loc} (dist : Loc -> nat -> R) (n k : nat) (p : Loc) (l : list nat) : Prop :=
  List.length l = k /\ NoDup l /\ (forall i, In i l -> (i < n)%nat) /\ StronglySorted (fun i j => dist p i <= dist p j) l /\
  (forall i j, In i l -> (j < n)%nat -> ~ In j l -> dist p i <= dist p j).
Definition kdtreeR {Loc} (dist : Loc -> nat -> R) (n : nat) (tree : nat -> Loc -> list (R * Z)) : Prop :=
  forall k p, (k <= n)%nat -> exists l, closestR dist n k p l /\ tree k p = map (fun i => (dist p i, Z.of_nat i)) l.
(** by exhaustive search *)
Fixpoint insert_r (f : nat -> R) (i : nat) (l : list nat) : list nat :=
  match l with [] => [i] | j :: r => if Rlt_dec (f j) (f i) then j :: insert_r f i r else i :: l end.
Definition sort_r (f : nat -> R) (l : list nat) : list nat := fold_right (insert_r f) [] l.
Definition exhaustiveR {Loc} (dist : Loc -> nat -> R) (n : nat) (k : nat) (p : Loc) : list (R * Z) :=
  map (fun i => (dist p i, Z.of_nat i)) (firstn k (sort_r (dist p) (seq 0 n))).

(** ** correlation distance decay *)
(** the radius of the mixed method: C = the points within the cdd; [m] stations
    at least, [k] neighbours *)
Definition mix_radius_rule (lo hi m k : nat) (cdd : R) (ds : list R) (r : R) : Prop :=
  ((within cdd ds < lo)%nat -> r = at_ ds m) /\ ((lo <= within cdd ds < hi)%nat -> r = cdd) /\ ((hi <= within cdd ds)%nat -> r = at_ ds (k - 1)).
(** [e^(-x/CDD)]^4 within the cdd *)
Definition decay (cdd d s : R) : Prop := (d <= cdd -> s = exp (- (d / cdd)) ^ 4) /\ (cdd < d -> s = 0).
(** the mixed method *)
Definition mix_decay (m ratio r d s : R) : Prop :=
  (d <= ratio * r -> s = Rpower (exp (- (d / r))) m) /\
  (ratio * r < d <= r -> s = Rpower (exp (- ratio)) m * ((d / r - 1) / (ratio - 1)) ^ 2) /\
  (r < d -> s = 0).
(** the neighbours are not all in the same direction: there are two, one of
    them used, seen at different angles; or the angles are not defined, for a
    neighbour at the target itself, or because at most one is used *)
Definition spread (diffs : list (R * R)) (s : list R) : Prop :=
  (exists i j, (i < List.length diffs)%nat /\ (j < List.length diffs)%nat /\ i <> j /\ 0 < at_ s j /\
     (forall l, (l < List.length diffs)%nat -> 0 < len (nth l diffs (0, 0))) /\ cosine (nth i diffs (0, 0)) (nth j diffs (0, 0)) < 1) \/
  (exists j, (j < List.length diffs)%nat /\ len (nth j diffs (0, 0)) = 0) \/
  (exists i, (i < List.length diffs)%nat /\ forall j, (j < List.length diffs)%nat -> j <> i -> at_ s j = 0).
(** what numpy promises about argpartition(s, 10) of eleven values: place 10
    has the largest, the others may have any order *)
Definition argpartition10 (part : list xr -> list nat) : Prop :=
  forall s : list R, List.length s = 11%nat -> Permutation (part (map XF s)) (seq 0 11) /\
    (forall i, (i < 10)%nat -> at_ s (nth i (part (map XF s)) O) <= at_ s (nth 10 (part (map XF s)) O)).
(** of eleven values only the ten largest are kept *)
Definition ten_largest (s out : list R) : Prop :=
  exists i, (i < 11)%nat /\ (forall j, (j < 11)%nat -> at_ s i <= at_ s j) /\ List.length out = 11%nat /\ at_ out i = 0 /\ forall j, (j < 11)%nat -> j <> i -> at_ out j = at_ s j.
(** numpy selects the last place by one scan for the last maximum, which it
    swaps to the end (npysort/selection.cpp, case kth = num - 1) *)
Fixpoint last_max_from (s : list R) (i best : nat) (bv : R) : nat :=
  match s with [] => best | x :: r => if Rlt_dec x bv then last_max_from r (S i) best bv else last_max_from r (S i) i x end.
Definition last_max (s : list R) : nat := match s with [] => O | x :: r => last_max_from r 1 0 x end.
Definition real_of (x : xr) : R := match x with XF r => r | _ => 0 end.
Definition numpy_part (s : list xr) : list nat :=
  let m := last_max (map real_of s) in map (fun i => if Nat.eqb i m then 10%nat else if Nat.eqb i 10 then m else i) (seq 0 (List.length s)).
