(** * GribInterp: model of src/pyg2p/main/interpolation/grib_interpolation_lib.py
    and of the application of its tables
    (src/pyg2p/main/interpolation/__init__.py:270-371).

    Not modelled: eccodes (the neighbours it finds are a parameter), printing of
    progress, dask's scheduling (bag.map gives the result of each chunk in the
    order of the chunks), conversions between int64 and float64 (exact for
    indexes below 2^53). *)
From Verif Require Import Base Num Strings.
Local Open Scope Z_scope.

(** eccodes.codes_grib_find_nearest(gid, lat, lon) and (..., npoints=4): the
    nearest point, the four nearest ones with their distances; [None]: it
    raises GribInternalError (point outside the grid) *)
Record grib_api := mkApi { find1 : num -> num -> option Z; find4 : num -> num -> option (list (Z * num)) }.

(** util/numeric.py:4 *)
Definition int_fill : Z := -999999.
(** -1.0e+10 *)
Definition low_lon : num := nint (-10000000000).
Definition nleb (a b : num) : bool := (nltb a b || neqb a b)%bool.

(** A target cell: latitude, longitude, row, column. *)
Record cell := mkCell { c_lat : num; c_lon : num; c_x : Z; c_y : Z }.
(** lines 25-29, 262-266: the cells of a map of [cols] columns, row by row.
    Latitudes and longitudes are maps of the same shape. *)
Definition cell_at (cols : nat) (i : nat) (p : num * num) : cell :=
  mkCell (fst p) (snd p) (Z.of_nat (Nat.div i cols)) (Z.of_nat (Nat.modulo i cols)).
Fixpoint cells_from (cols i : nat) (coords : list (num * num)) : list cell :=
  match coords with [] => [] | p :: r => cell_at cols i p :: cells_from cols (S i) r end.
Definition cells_of (cols : nat) (coords : list (num * num)) : list cell := cells_from cols O coords.

(** lines 27-29, 66-68, 265-267 [np.where(valid_target_coords, ...)] *)
Definition valid_lon (mv lon : num) : bool := (nltb low_lon lon && negb (neqb lon mv))%bool.
Definition initial (mv : num) (c : cell) : cell :=
  if valid_lon mv (c_lon c) then c else mkCell (c_lat c) (c_lon c) int_fill int_fill.

(** [a[a != int_fill_value]] *)
Definition drop_fill (l : list Z) : list Z := filter (fun z => negb (z =? int_fill)) l.
(** [a[~np.isnan(a)]] *)
Definition drop_nan (l : list num) : list num := filter (fun v => negb (is_nan v)) l.

(** ** Nearest neighbour *)
(** lines 44-53 and 154-164: x, y and index of one cell ([c]: after [initial]) *)
Definition near_step (f : grib_api) (mv : num) (c : cell) : Z * Z * Z :=
  if negb (nleb (c_lon c) low_lon || neqb (c_lon c) mv) then
    match find1 f (c_lat c) (c_lon c) with
    | None => (int_fill, int_fill, int_fill)
    | Some k => (c_x c, c_y c, k)
    end
  else (c_x c, c_y c, int_fill).
(** lines 57-60, 180-182 *)
Definition near_table (l : list (Z * Z * Z)) : list Z * list Z * list Z :=
  (drop_fill (map (fun t => fst (fst t)) l), drop_fill (map (fun t => snd (fst t)) l), drop_fill (map snd l)).

(** lines 40-53: the loop; [i % progress_step] raises ZeroDivisionError *)
Fixpoint near_loop (f : grib_api) (mv : num) (pstep : Z) (l : list cell) : res (list (Z * Z * Z)) :=
  match l with
  | [] => Ok []
  | c :: r => if pstep =? 0 then Raise ZeroDivisionError
              else do ts <- near_loop f mv pstep r; Ok (near_step f mv c :: ts)
  end.
(** lines 24-60 grib_nearest *)
Definition grib_nearest (f : grib_api) (isatty : bool) (cols : nat) (coords : list (num * num)) (mv : num)
  : res (list Z * list Z * list Z) :=
  let pstep := progress_step (Z.of_nat (List.length coords)) isatty in
  do l <- near_loop f mv pstep (map (initial mv) (cells_of cols coords));
  Ok (near_table l).

(** [np.array_split(stack, n, axis=1)]: the first (size mod n) pieces have one
    more element *)
Fixpoint take_sizes {A} (sizes : list nat) (l : list A) : list (list A) :=
  match sizes with [] => [] | n :: r => firstn n l :: take_sizes r (skipn n l) end.
Definition array_split {A} (n : nat) (l : list A) : res (list (list A)) :=
  if Nat.eqb n 0 then Raise ValueError
  else let size := List.length l in
       let q := Nat.div size n in let r := Nat.modulo size n in
       Ok (take_sizes (List.app (repeat (S q) r) (repeat q (n - r))) l).
(** [np.apply_along_axis(step, 0, chunk)]: an empty chunk raises ValueError *)
Definition apply_chunk {A B} (step : A -> B) (chunk : list A) : res (list B) :=
  match chunk with [] => Raise ValueError | _ => Ok (map step chunk) end.

(** lines 147-182, 260-270 grib_nearest_parallel: [rows] chunks *)
Definition near_chunks (f : grib_api) (mv : num) (chunks : list (list cell)) : res (list Z * list Z * list Z) :=
  do rs <- mapM (apply_chunk (near_step f mv)) chunks;
  Ok (near_table (List.concat rs)).
Definition grib_nearest_parallel (f : grib_api) (rows cols : nat) (coords : list (num * num)) (mv : num)
  : res (list Z * list Z * list Z) :=
  do chunks <- array_split rows (map (initial mv) (cells_of cols coords));
  near_chunks f mv chunks.

(** ** Inverse distance *)
(** lines 124-140 _compute_coeffs_and_idxs: the loop over the four points *)
Fixpoint exact_at (l : list (Z * num)) : option Z :=
  match l with
  | [] => None
  | (k, d) :: r => if neqb d (nint 0) then Some k else exact_at r
  end.
Definition compute_coeffs (l : list (Z * num)) : res ((num * num * num * num) * (Z * Z * Z * Z)) :=
  match l with
  | (k1, d1) :: (k2, d2) :: (k3, d3) :: (k4, d4) :: _ =>
      match exact_at [(k1, d1); (k2, d2); (k3, d3); (k4, d4)] with
      | Some k => Ok ((nint 1, nint 0, nint 0, nint 0), (k, 0, 0, 0))
      | None => Ok ((ndiv (nint 1) d1, ndiv (nint 1) d2, ndiv (nint 1) d3, ndiv (nint 1) d4), (k1, k2, k3, k4))
      end
  | _ => Raise IndexError   (* fewer than four points; eccodes gives four *)
  end.

Record inv_row := mkInv { iv_x : Z; iv_y : Z; iv_idx : Z * Z * Z * Z; iv_inv : num * num * num * num }.
Definition q1 {A} (t : A * A * A * A) : A := let '(a, _, _, _) := t in a.
Definition q2 {A} (t : A * A * A * A) : A := let '(_, b, _, _) := t in b.
Definition q3 {A} (t : A * A * A * A) : A := let '(_, _, c, _) := t in c.
Definition q4 {A} (t : A * A * A * A) : A := let '(_, _, _, d) := t in d.
Definition no_row (x y : Z) : inv_row := mkInv x y (int_fill, int_fill, int_fill, int_fill) (NaN, NaN, NaN, NaN).
(** lines 91-102, 192-206. The test here is [lon < -1.0e+10]. *)
Definition inv_step (f : grib_api) (mv : num) (c : cell) : res inv_row :=
  if negb (nltb (c_lon c) low_lon || neqb (c_lon c) mv) then
    match find4 f (c_lat c) (c_lon c) with
    | None => Ok (no_row int_fill int_fill)
    | Some l => do '(inv, idx) <- compute_coeffs l; Ok (mkInv (c_x c) (c_y c) idx inv)
    end
  else Ok (no_row (c_x c) (c_y c)).

(** a table: rows, columns, four index arrays, four coefficient arrays *)
Record inv_table := mkTable
  { t_xs : list Z; t_ys : list Z; t_i1 : list Z; t_i2 : list Z; t_i3 : list Z; t_i4 : list Z;
    t_c1 : list num; t_c2 : list num; t_c3 : list num; t_c4 : list num }.
(** lines 105-121 and 214-257: the arrays without fill values, normalised
    coefficients *)
Definition inv_finish (l : list inv_row) : res inv_table :=
  let i1 := drop_nan (map (fun r => q1 (iv_inv r)) l) in
  let i2 := drop_nan (map (fun r => q2 (iv_inv r)) l) in
  let i3 := drop_nan (map (fun r => q3 (iv_inv r)) l) in
  let i4 := drop_nan (map (fun r => q4 (iv_inv r)) l) in
  do s <- ew2 nadd i1 i2;
  do s <- ew2 nadd s i3;
  do s <- ew2 nadd s i4;
  do c1 <- ew2 ndiv i1 s;
  do c2 <- ew2 ndiv i2 s;
  do c3 <- ew2 ndiv i3 s;
  do c4 <- ew2 ndiv i4 s;
  Ok (mkTable (drop_fill (map iv_x l)) (drop_fill (map iv_y l))
        (drop_fill (map (fun r => q1 (iv_idx r)) l)) (drop_fill (map (fun r => q2 (iv_idx r)) l))
        (drop_fill (map (fun r => q3 (iv_idx r)) l)) (drop_fill (map (fun r => q4 (iv_idx r)) l)) c1 c2 c3 c4).

(** lines 86-103: the loop *)
Fixpoint inv_loop (f : grib_api) (mv : num) (pstep : Z) (l : list cell) : res (list inv_row) :=
  match l with
  | [] => Ok []
  | c :: r => if pstep =? 0 then Raise ZeroDivisionError
              else do t <- inv_step f mv c; do ts <- inv_loop f mv pstep r; Ok (t :: ts)
  end.
(** lines 63-121 grib_invdist *)
Definition grib_invdist (f : grib_api) (isatty : bool) (cols : nat) (coords : list (num * num)) (mv : num) : res inv_table :=
  let pstep := progress_step (Z.of_nat (List.length coords)) isatty in
  do l <- inv_loop f mv pstep (map (initial mv) (cells_of cols coords));
  inv_finish l.

(** lines 188-257, 260-270 grib_invdist_parallel *)
Definition apply_inv_chunk (f : grib_api) (mv : num) (chunk : list cell) : res (list inv_row) :=
  match chunk with [] => Raise ValueError | _ => mapM (inv_step f mv) chunk end.
Definition inv_chunks (f : grib_api) (mv : num) (chunks : list (list cell)) : res inv_table :=
  do rs <- mapM (apply_inv_chunk f mv) chunks;
  inv_finish (List.concat rs).
Definition grib_invdist_parallel (f : grib_api) (rows cols : nat) (coords : list (num * num)) (mv : num) : res inv_table :=
  do chunks <- array_split rows (map (initial mv) (cells_of cols coords));
  inv_chunks f mv chunks.

(** ** Application of a table: interpolation/__init__.py:270-371 *)
(** [v[idxs]] *)
Definition gather (v : arr) (idxs : list Z) : res arr :=
  do d <- mapM (py_index (adata v)) idxs;
  match v with
  | Nd _ => Ok (Nd d)
  | Ma _ None => Ok (Ma d None)
  | Ma _ (Some m) => do mm <- mapM (py_index m) idxs; Ok (Ma d (Some mm))
  end.
(** util/numeric.py:21-27 result_masked *)
Definition result_masked (v : arr) (fill : num) : list num :=
  match v with
  | Nd d => d
  | Ma d None => d
  | Ma d (Some m) => zipw (fun x b => if (b : bool) then fill else x) d m
  end.
(** one element of [result[xs, ys] = ...] on a map of [rows] rows and [cols]
    columns *)
Definition norm_index (i : Z) (n : nat) : res nat :=
  let j := if i <? 0 then i + Z.of_nat n else i in
  if ((j <? 0) || (Z.of_nat n <=? j))%bool then Raise IndexError else Ok (Z.to_nat j).
Fixpoint set_nth {A} (l : list A) (i : nat) (a : A) : list A :=
  match l, i with
  | [], _ => []
  | _ :: r, O => a :: r
  | b :: r, S k => b :: set_nth r k a
  end.
Definition put_cell (rows cols : nat) (acc : list num) (p : Z * Z * num) : res (list num) :=
  let '(x, y, v) := p in
  do i <- norm_index x rows;
  do j <- norm_index y cols;
  Ok (set_nth acc (i * cols + j)%nat v).
(** [result[xs, ys] = vals]; a single value is broadcast *)
Definition put (rows cols : nat) (result : list num) (xs ys : list Z) (vals : list num) : res (list num) :=
  if negb (Nat.eqb (List.length xs) (List.length ys)) then Raise IndexError
  else let vals := match vals with [v] => repeat v (List.length xs) | _ => vals end in
       if negb (Nat.eqb (List.length vals) (List.length xs)) then Raise ValueError
       else foldM (put_cell rows cols) (combine (combine xs ys) vals) result.

(** lines 273-274, 311-312: [mv]: missing value of the target map *)
Definition apply_nearest (rows cols : nat) (mv : num) (v : arr) (t : list Z * list Z * list Z) : res (list num) :=
  let '(xs, ys, idxs) := t in
  do w <- gather v idxs;
  put rows cols (repeat mv (rows * cols)) xs ys (result_masked w mv).

(** [a * c] and [a + b] of arrays that may be masked; values under a mask do
    not matter here *)
Definition arr_op2 (f : num -> num -> num) (a b : arr) : res arr :=
  do d <- ew2 f (adata a) (adata b);
  match a, b with
  | Nd _, Nd _ => Ok (Nd d)
  | _, _ => Ok (Ma d (mask_or (amask a) (amask b)))
  end.
(** lines 369-371 *)
Definition apply_invdist (rows cols : nat) (mv : num) (v : arr) (t : inv_table) : res (list num) :=
  do v1 <- gather v (t_i1 t);
  do p1 <- arr_op2 nmul v1 (Nd (t_c1 t));
  do v2 <- gather v (t_i2 t);
  do p2 <- arr_op2 nmul v2 (Nd (t_c2 t));
  do s <- arr_op2 nadd p1 p2;
  do v3 <- gather v (t_i3 t);
  do p3 <- arr_op2 nmul v3 (Nd (t_c3 t));
  do s <- arr_op2 nadd s p3;
  do v4 <- gather v (t_i4 t);
  do p4 <- arr_op2 nmul v4 (Nd (t_c4 t));
  do s <- arr_op2 nadd s p4;
  put rows cols (repeat mv (rows * cols)) (t_xs t) (t_ys t) (result_masked s mv).
