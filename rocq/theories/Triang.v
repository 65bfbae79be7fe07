(** * Triang: tables of modes triangulation and bilinear_delaunay
    (src/pyg2p/main/interpolation/scipy_interpolation_lib.py:265-267, 318-319, 1347-1520).

    Oracles: scipy.integrate.quad ([quad_int], value and error estimate of the
    integral of 1/cos from 0 to a latitude), Qhull ([delaunay]), the distance from
    a target to the nearest source point ([near]), the Cartesian position of a
    source point ([place]), get_angle ([angle]), numpy's argsort and fsolve as in
    Bilinear. Real numbers; rounding is not modelled. Interpolated values, which
    the caller drops, and the printing are left out. *)
From Verif Require Import Base Num Strings Xr Adw Bilinear.
Local Open Scope R_scope.

Notation pt := (R * R)%type.
Notation space3 := (R * R * R)%type.
(** result of Delaunay: triangles, the triangles beyond each side (opposite to
    the vertex, -1 for none), the triangle around a point (-1 for none), and the
    affine transformation of a triangle: matrix rows and last vertex *)
Record triangulation := mkTri {
  simplices : list (list Z);
  neighbors : list (list Z);
  find_simplex : pt -> Z;
  transform : list (pt * pt * pt) }.

(** ** the points: lines 1356-1398 *)
(** lines 1356-1358 *)
Definition normalized (g : source) : list pt := zipw (fun la lo => (la, to180 lo)) (latgrib g) (longrib g).
Definition lon_max (ps : list pt) : R := match ps with [] => 0 | p :: l => fold_left Rmax (map snd l) (snd p) end.
Definition lon_min (ps : list pt) : R := match ps with [] => 0 | p :: l => fold_left Rmin (map snd l) (snd p) end.
Definition lat_max (ps : list pt) : R := match ps with [] => 0 | p :: l => fold_left Rmax (map fst l) (fst p) end.
(** lines 1364-1366 *)
Definition resolution (ps : list pt) : res R := do a <- py_index (map snd ps) 0; do b <- py_index (map snd ps) 1; Ok (Rabs (a - b) * (3 / 2)).
Definition covers_globe (ps : list pt) (r : R) : bool := ltb (360 - (lon_max ps - lon_min ps)) r.
(** lines 1367-1384: points of the right border are repeated on the left, then
    those of the left border on the right *)
Definition at_right (ps : list pt) (r : R) (p : pt) : bool := ltb (lon_max ps - r * 2) (snd p).
Definition at_left (ps : list pt) (r : R) (p : pt) : bool := ltb (snd p) (lon_min ps + r * 2).
Definition shift_lon (d : R) (p : pt) : pt := (fst p, snd p + d).
Definition padded (ps : list pt) (r : R) : list pt :=
  (ps ++ map (shift_lon (-360)) (filter (at_right ps r) ps)) ++ map (shift_lon 360) (filter (at_left ps r) ps).
(** np.where *)
Fixpoint where_from (n : Z) (f : pt -> bool) (ps : list pt) : list Z :=
  match ps with [] => [] | p :: l => if f p then n :: where_from (n + 1) f l else where_from (n + 1) f l end.
Definition original_indexes (ps : list pt) (r : R) : list Z := where_from 0 (at_right ps r) ps ++ where_from 0 (at_left ps r) ps.

Section scaling.
  Context (quad_int : R -> R * R).
  (** lines 1391-1398, of a source that is not rotated. [None]: division by a
      largest value of zero, NaN coordinates (a ValueError of Delaunay) *)
  Definition scaled_points (ps : list pt) : option (list pt) :=
    let vs := map (fun p => fst (quad_int (fst p))) ps in
    match vs with
    | [] => Some []
    | v :: l => let m := fold_left Rmax l v in
                if Req_EM_T m 0 then None else Some (map (fun p => (fst (quad_int (fst p)) * 90 * 10 / m, snd p)) ps)
    end.
  (** lines 1402-1412: the latitude is that of the first cell of the row, the
      divisor is the larger of value and error. [None]: division by zero *)
  Definition scaled_lat (ps : list pt) (first_lat : R) : option R :=
    let '(v, e) := quad_int (lat_max ps) in
    let m := Rmax v e in
    if Req_EM_T m 0 then None else Some (fst (quad_int first_lat) * 90 * 10 / m).
End scaling.

(** a target cell: latitude of the first cell of its row, its latitude and longitude *)
Record tcell := mkCell { first_lat : R; c_lat : R; c_lon : R }.
(** the cells of a target, row by row *)
Definition cells_of (target : list (list pt)) : list tcell :=
  flat_map (fun row => match row with [] => [] | p0 :: _ => map (fun p => mkCell (fst p0) (fst p) (snd p)) row end) target.

(** Python subscripts of a list that is updated *)
Definition py_update (l : list Z) (i x : Z) : res (list Z) :=
  let n := Z.of_nat (List.length l) in
  let j := (if i <? 0 then i + n else i)%Z in
  if ((j <? 0) || (n <=? j))%Z%bool then Raise IndexError else Ok (firstn (Z.to_nat j) l ++ x :: skipn (S (Z.to_nat j)) l).
(** np.unique *)
Fixpoint insert_unique (x : Z) (l : list Z) : list Z :=
  match l with [] => [x] | y :: l' => if (x =? y)%Z then l else if (x <? y)%Z then x :: l else y :: insert_unique x l' end.
Definition unique (l : list Z) : list Z := fold_right insert_unique [] l.

Section cell.
  Context (argsort : list R -> list nat) (angle : pt -> pt -> pt -> R) (solve : quad -> R -> R -> R * R)
          (place : pt -> space3) (dist : space3 -> space3 -> R).
  (** [ps]: coordinates, [sps]: scaled coordinates, with the padding *)
  Context (tri : triangulation) (ps sps : list pt) (global use_bilinear : bool) (mub : R).

  Definition fold180 (a : R) : R := if ltb 180 a then 360 - a else a.
  Definition at_pt (l : list pt) (i : Z) : res pt := py_index l i.
  (** lines 1469-1481: side of the widest angle *)
  Definition widest (a b c : pt) : nat :=
    let a0 := fold180 (angle c a b) in
    if leb 90 a0 then 0%nat
    else let a1 := fold180 (angle a b c) in argmax [a0; a1; 180 - a0 - a1].
  (** lines 1482-1486: [pairs] is idxs_tri_neighbors_to_use *)
  Definition pair_triangles (pairs : list Z) (t nb : Z) : res (list Z) :=
    if (nb >? -1)%Z then
      do x <- py_index pairs t;
      if (x =? -1)%Z then
        do y <- py_index pairs nb;
        if (y =? -1)%Z then do pairs1 <- py_update pairs t nb; py_update pairs1 nb t else Ok pairs
      else Ok pairs
    else Ok pairs.
  (** lines 1467-1488: corners of the cell, and the pairs for the next one *)
  Definition choose (t : Z) (idx : list Z) (pairs : list Z) : res (list Z * list Z) :=
    if use_bilinear then
      match idx with
      | [i; j; k] =>
          do a <- at_pt sps i; do b <- at_pt sps j; do c <- at_pt sps k;
          do nbs <- py_index (neighbors tri) t;
          do nb <- py_index nbs (Z.of_nat (widest a b c));
          do pairs' <- pair_triangles pairs t nb;
          do other <- py_index pairs' t;
          if (other >? -1)%Z then
            do idx2 <- py_index (simplices tri) other;
            let u := unique (idx ++ idx2) in
            if (List.length u =? 4)%nat then Ok (u, pairs') else Raise ValueError
          else Ok (idx ++ [-1], pairs')%Z
      | _ => Raise OtherError
      end
    else Ok (idx, pairs).
  Definition corner_at_index (i : Z) : res corner := do p <- at_pt ps i; Ok (mkCorner (fst p) (snd p) i).
  (** lines 1509-1511 *)
  Definition barycentric (m : pt * pt * pt) (p : pt) : R * R :=
    let '(r0, r1, last) := m in
    let dx := fst p - fst last in let dy := snd p - snd last in
    (fst r0 * dx + snd r0 * dy, fst r1 * dx + snd r1 * dy).
  Definition triangle_row (m : pt * pt * pt) (p : pt) (idx : list Z) : list xr * list Z :=
    let '(b0, b1) := barycentric m p in
    ([XF b0; XF b1; XF (1 - (b0 + b1))] ++ repeat (XF 0) (List.length idx - 3), idx).
  Definition nan_row3 (idx : list Z) : list xr * list Z := (repeat XNaN (List.length idx), idx).
  Definition too_far (a b : space3) : bool := ltb (mub * 10) (dist a b).
  (** lines 1445-1512; [near]: distance to the nearest source point; [p_scaled]:
      the scaled target, [None] if it is not a number *)
  Definition tri_cell (near : R) (p_scaled : option pt) (c : tcell) (pairs : list Z) : res ((list xr * list Z) * list Z) :=
    let t := match p_scaled with Some p => find_simplex tri p | None => (-1)%Z end in
    do idx <- py_index (simplices tri) t;
    let wide := if use_bilinear then (idx ++ [-1])%Z else idx in
    match p_scaled with
    | None => Ok (nan_row3 wide, pairs)
    | Some p =>
      if ((t =? -1)%Z || (negb global && ltb mub near))%bool then Ok (nan_row3 wide, pairs)
      else match idx with
      | [i; j; k] =>
        do a <- at_pt ps i; do b <- at_pt ps j; do c' <- at_pt ps k;
        if (negb global && (too_far (place a) (place b) || too_far (place b) (place c') || too_far (place a) (place c')))%bool then Ok (nan_row3 wide, pairs)
        else
          do '(idx', pairs') <- choose t idx pairs;
          if (List.length (filter (fun x => 0 <=? x)%Z idx') =? 4)%nat then
            do cs <- mapM corner_at_index idx';
            Ok (quad_row solve (clockwise argsort cs) (c_lat c) (c_lon c), pairs')
          else do m <- py_index (transform tri) t; Ok (triangle_row m p idx', pairs')
      | _ => Raise OtherError
      end
    end.
  Fixpoint tri_cells (near : tcell -> R) (scaled : tcell -> option pt) (cells : list tcell) (pairs : list Z) : res (list (list xr * list Z)) :=
    match cells with
    | [] => Ok []
    | c :: cells' => do '(r, pairs') <- tri_cell (near c) (scaled c) c pairs; do rs <- tri_cells near scaled cells' pairs'; Ok (r :: rs)
    end.
End cell.

(** lines 1513-1514; [n]: number of source points *)
Definition unpad (n : Z) (original : list Z) (i : Z) : res Z := if (i >? n)%Z then py_index original (i - n) else Ok i.
Definition unpad_rows (n : Z) (original : list Z) (rows : list (list xr * list Z)) : res (list (list xr * list Z)) :=
  mapM (fun r => do idx <- mapM (unpad n original) (snd r); Ok (fst r, idx)) rows.
(** lines 1437-1441: one entry for every triangle up to the largest neighbour *)
Definition no_pairs (tri : triangulation) (ts : list Z) : res (list Z) :=
  do nbs <- mapM (py_index (neighbors tri)) ts;
  match List.concat nbs with [] => Raise ValueError | x :: l => Ok (repeat (-1)%Z (Z.to_nat (fold_left Z.max l x + 1))) end.

(** ** the whole table: lines 1347-1520 *)
Section table.
  Context (quad_int : R -> R * R) (delaunay : list pt -> res triangulation)
          (argsort : list R -> list nat) (angle : pt -> pt -> pt -> R) (solve : quad -> R -> R -> R * R)
          (place : pt -> space3) (dist : space3 -> space3 -> R) (near : tcell -> R).
  Definition build_triangulation (g : source) (rotated use_bilinear isatty : bool) (mub : R) (target : list (list pt)) : res (list (list xr * list Z)) :=
    let ps0 := normalized g in
    do r <- resolution ps0;
    let global := covers_globe ps0 r in
    let ps := if global then padded ps0 r else ps0 in
    do sps <- (if rotated then Ok ps else match scaled_points quad_int ps with None => Raise ValueError | Some l => Ok l end);
    do tri <- delaunay sps;
    let scaled c := if rotated then Some (first_lat c, c_lon c) else match scaled_lat quad_int ps (first_lat c) with None => None | Some v => Some (v, c_lon c) end in
    let cells := cells_of target in
    do pairs <- (if use_bilinear then no_pairs tri (map (fun c => match scaled c with Some p => find_simplex tri p | None => (-1)%Z end) cells) else Ok []);
    if ((progress_step (Z.of_nat (List.length cells)) isatty =? 0)%Z && negb (match cells with [] => true | _ => false end))%bool then Raise ZeroDivisionError
    else do rows <- tri_cells argsort angle solve place dist tri ps sps global use_bilinear mub near scaled cells pairs;
         if global then unpad_rows (Z.of_nat (List.length (latgrib g))) (original_indexes ps0 r) rows else Ok rows.
End table.
