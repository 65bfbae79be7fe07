(** * Spec_GribInterp: vocabulary of C44-C47 *)
From Verif Require Import Base Num GribInterp.
Local Open Scope Qc_scope.

(** a longitude that marks a cell outside the target area *)
Definition no_target (mv lon : num) : Prop := lon = mv \/ lon = MInf \/ exists q, lon = Fin q /\ q <= ZQ (-10000000000).
(** the value of source point [k] of a field; missing if it is masked *)
Definition point (v : arr) (mv : num) (k : Z) : num :=
  if masked_at v (Z.to_nat k) then mv else nth (Z.to_nat k) (adata v) NaN.

(** four points with distances *)
Definition four (l : list (Z * num)) (n : nat) : Prop := exists k1 k2 k3 k4 d1 d2 d3 d4,
  l = [(k1, Fin d1); (k2, Fin d2); (k3, Fin d3); (k4, Fin d4)] /\
  0 <= d1 /\ 0 <= d2 /\ 0 <= d3 /\ 0 <= d4 /\
  (0 <= k1 < Z.of_nat n)%Z /\ (0 <= k2 < Z.of_nat n)%Z /\ (0 <= k3 < Z.of_nat n)%Z /\ (0 <= k4 < Z.of_nat n)%Z.

(** inverse distance weight of the point at distance [d] among four *)
Definition idw (d1 d2 d3 d4 d : Qc) : Qc := (1 / d) / (1 / d1 + 1 / d2 + 1 / d3 + 1 / d4).

(** the inverse distance value of four points [(k, d)] of a field: the value of
    the first one at distance 0, if any; missing if one is masked *)
Definition idw_value (v : arr) (mv : num) (l : list (Z * num)) (r : num) : Prop :=
  exists k1 k2 k3 k4 d1 d2 d3 d4, l = [(k1, Fin d1); (k2, Fin d2); (k3, Fin d3); (k4, Fin d4)] /\
  let p := point v mv in
  let masked := fun k => masked_at v (Z.to_nat k) in
  (d1 = 0 -> r = p k1) /\ (d1 <> 0 -> d2 = 0 -> r = p k2) /\ (d1 <> 0 -> d2 <> 0 -> d3 = 0 -> r = p k3) /\
  (d1 <> 0 -> d2 <> 0 -> d3 <> 0 -> d4 = 0 -> r = p k4) /\
  (d1 <> 0 -> d2 <> 0 -> d3 <> 0 -> d4 <> 0 ->
     ((masked k1 || masked k2 || masked k3 || masked k4)%bool = true -> r = mv) /\
     ((masked k1 || masked k2 || masked k3 || masked k4)%bool = false ->
      r = nadd (nadd (nadd (nmul (p k1) (Fin (idw d1 d2 d3 d4 d1))) (nmul (p k2) (Fin (idw d1 d2 d3 d4 d2))))
                     (nmul (p k3) (Fin (idw d1 d2 d3 d4 d3)))) (nmul (p k4) (Fin (idw d1 d2 d3 d4 d4))))).

(** ** tables *)
(** the place of a cell in the flattened map *)
Definition place (cols : nat) (x y : Z) : nat := (Z.to_nat x * cols + Z.to_nat y)%nat.
Definition in_map (rows cols : nat) (x y : Z) : Prop := (0 <= x < Z.of_nat rows)%Z /\ (0 <= y < Z.of_nat cols)%Z.
Definition in_field (v : arr) (k : Z) : Prop := (0 <= k < Z.of_nat (asize v))%Z.

(** a row of an inverse distance table: cell, four points, four coefficients *)
Record trow := mkRow { r_x : Z; r_y : Z; r_k1 : Z; r_k2 : Z; r_k3 : Z; r_k4 : Z; r_c1 : num; r_c2 : num; r_c3 : num; r_c4 : num }.
Definition table_of (rs : list trow) : inv_table :=
  mkTable (map r_x rs) (map r_y rs) (map r_k1 rs) (map r_k2 rs) (map r_k3 rs) (map r_k4 rs) (map r_c1 rs) (map r_c2 rs) (map r_c3 rs) (map r_c4 rs).
(** the weighted sum of a row; missing if a point is masked *)
Definition row_value (v : arr) (mv : num) (r : trow) : num :=
  let masked := fun k => masked_at v (Z.to_nat k) in
  let d := fun k => nth (Z.to_nat k) (adata v) NaN in
  if (masked (r_k1 r) || masked (r_k2 r) || masked (r_k3 r) || masked (r_k4 r))%bool then mv
  else nadd (nadd (nadd (nmul (d (r_k1 r)) (r_c1 r)) (nmul (d (r_k2 r)) (r_c2 r))) (nmul (d (r_k3 r)) (r_c3 r))) (nmul (d (r_k4 r)) (r_c4 r)).

(** [r] is a proper inverse distance row for the four neighbours [l] *)
Definition proper_row (l : list (Z * num)) (r : trow) : Prop :=
  exists k1 k2 k3 k4 d1 d2 d3 d4, l = [(k1, Fin d1); (k2, Fin d2); (k3, Fin d3); (k4, Fin d4)] /\
  (exists c1 c2 c3 c4, r_c1 r = Fin c1 /\ r_c2 r = Fin c2 /\ r_c3 r = Fin c3 /\ r_c4 r = Fin c4 /\
     0 <= c1 /\ 0 <= c2 /\ 0 <= c3 /\ 0 <= c4 /\ c1 + c2 + c3 + c4 = 1) /\
  let exact := fun k => r_k1 r = k /\ r_c1 r = Fin 1 /\ r_c2 r = Fin 0 /\ r_c3 r = Fin 0 /\ r_c4 r = Fin 0 in
  (d1 = 0 -> exact k1) /\ (d1 <> 0 -> d2 = 0 -> exact k2) /\ (d1 <> 0 -> d2 <> 0 -> d3 = 0 -> exact k3) /\
  (d1 <> 0 -> d2 <> 0 -> d3 <> 0 -> d4 = 0 -> exact k4) /\
  (d1 <> 0 -> d2 <> 0 -> d3 <> 0 -> d4 <> 0 ->
     r_k1 r = k1 /\ r_k2 r = k2 /\ r_k3 r = k3 /\ r_k4 r = k4 /\
     r_c1 r = Fin (idw d1 d2 d3 d4 d1) /\ r_c2 r = Fin (idw d1 d2 d3 d4 d2) /\
     r_c3 r = Fin (idw d1 d2 d3 d4 d3) /\ r_c4 r = Fin (idw d1 d2 d3 d4 d4)).

(** eccodes: the nearest point and the four nearest points of a grid of [n]
    points, at distances that are not negative *)
Definition good_api (f : grib_api) (n : nat) : Prop :=
  (forall lat lon k, find1 f lat lon = Some k -> (0 <= k < Z.of_nat n)%Z) /\
  (forall lat lon l, find4 f lat lon = Some l -> four l n).
(** the longitude of a target cell is a number, and is not exactly -1e10
    (unless that is the missing value) *)
Definition good_lon (mv lon : num) : Prop := lon <> NaN /\ (lon = low_lon -> mv = low_lon).
