(** * Bilinear: bilinear tables
    (src/pyg2p/main/interpolation/scipy_interpolation_lib.py:85-317, 1077-1345).

    Oracles: the KD-tree ([query], the indexes of the nearest source points),
    numpy's argsort ([argsort], which may order equal keys in any way), atan2
    ([angle], get_angle of lines 265-267) and scipy's fsolve ([solve]).
    Real numbers; rounding is not modelled. Latitudes, longitudes and indexes
    only: the interpolated values, which the caller drops, and the printing are
    left out. Coordinates are numbers (never NaN). *)
From Verif Require Import Base Num Strings Xr Adw.
Local Open Scope R_scope.

Definition ltb (a b : R) : bool := if Rlt_dec a b then true else false.

(** a row of corners_points: latitude, longitude and index of the source point
    (column 2, the value, is not modelled) *)
Record corner := mkCorner { clat : R; clon : R; cidx : Z }.

(** ** coordinates of a source point as seen from the target: lines 93-133 *)
Definition rsign (x : R) : R := if Rlt_dec 0 x then 1 else if Rlt_dec x 0 then -1 else 0.
(** Python's [x % 360] *)
Definition mod360 (x : R) : R := x - 360 * IZR (Int_part (x / 360)).
(** lines 104-113 and 123-131 *)
Definition reference (lon_in lon : R) : R :=
  if Rlt_dec lon_in (-90) then (if Rlt_dec 0 lon then lon - 360 else lon)
  else if Rlt_dec 90 lon_in then (if Rlt_dec lon 0 then lon + 360 else lon)
  else lon.
(** line 101-102, 119-121 *)
Definition to180 (lon : R) : R := if Rlt_dec 180 lon then lon - 360 else lon.
Definition correct_point (lon_in lat lon : R) : R * R :=
  let lon1 := reference lon_in (to180 lon) in
  let '(lat2, lon2) := if Rlt_dec 90 (Rabs (lon_in - lon1)) then (180 * rsign lat - lat, to180 (mod360 (lon1 + 180))) else (lat, lon1) in
  (lat2, reference lon_in lon2).
(** the source grid: latitudes and longitudes; lines 1192, 1217-1222 *)
Record source := mkSource { latgrib : list R; longrib : list R }.
Definition corner_of (g : source) (lon_in : R) (i : Z) : res corner :=
  do lat <- py_index (latgrib g) i;
  do lon <- py_index (longrib g) i;
  let '(lat', lon') := correct_point lon_in lat lon in Ok (mkCorner lat' lon' i).

(** ** order of the corners: lines 136-158 *)
Definition sort_key (c : corner) : R := clon c * 1000 + clat c.
Notation quad := (corner * corner * corner * corner)%type.
Definition nthc (l : list corner) (i : nat) : corner := nth i l (mkCorner 0 0 0).
Definition low_high (a b : corner) : corner * corner := if leb (clat a) (clat b) then (a, b) else (b, a).
(** bottom left, bottom right, top right, top left *)
Definition clockwise (argsort : list R -> list nat) (cs : list corner) : quad :=
  let o := argsort (map sort_key cs) in
  let at_ i := nthc cs (nth i o O) in
  let '(bl, tl) := low_high (at_ 0%nat) (at_ 1%nat) in
  let '(br, tr) := low_high (at_ 2%nat) (at_ 3%nat) in
  (bl, br, tr, tl).

(** ** choice of the four points *)
(** first index of a largest element *)
Fixpoint argmax_from (best : nat) (bv : R) (i : nat) (l : list R) : nat :=
  match l with [] => best | x :: l' => if Rlt_dec bv x then argmax_from i x (S i) l' else argmax_from best bv (S i) l' end.
Definition argmax (l : list R) : nat := match l with [] => O | x :: l' => argmax_from 0 x 1 l' end.
Definition argmin (l : list R) : nat := argmax (map Ropp l).
(** rows of a selection minus [lat, lon, 0, 0] *)
Definition shifted (lat lon : R) (cs : list corner) : list corner := map (fun c => mkCorner (clat c - lat) (clon c - lon) (cidx c)) cs.
Definition ups (lat_in : R) (cs : list corner) : list corner := filter (fun c => leb (clat c) lat_in) cs.
Definition downs (lat_in : R) (cs : list corner) : list corner := filter (fun c => ltb lat_in (clat c)) cs.
Definition same_place (a b : corner) : bool := if Req_EM_T (clat a) (clat b) then (if Req_EM_T (clon a) (clon b) then true else false) else false.
(** lines 167-172: points that repeat the coordinates of an earlier one *)
Fixpoint repeated (seen cs : list corner) : list Z :=
  match cs with [] => [] | c :: cs' => (if existsb (same_place c) seen then [cidx c] else []) ++ repeated (seen ++ [c]) cs' end.
(** lines 177-187: drop the farthest until two are left; [n]: at most this often *)
Fixpoint drop_far (n : nat) (ds : list corner) : list Z :=
  match n with
  | O => []
  | S n' => if (2 <? List.length ds)%nat
            then let i := cidx (nthc ds (argmax (map (fun d => Rabs (clat d) + / 100 * Rabs (clon d)) ds))) in
                 i :: drop_far n' (filter (fun d => negb (cidx d =? i)%Z) ds)
            else []
  end.
(** lines 164-188 *)
Definition wrong_direction (lat_in lon_in : R) (cs : list corner) : list Z :=
  match repeated [] cs with
  | [] => drop_far 4 (shifted lat_in lon_in (ups lat_in cs)) ++ drop_far 4 (shifted lat_in lon_in (downs lat_in cs))
  | l => l
  end.
(** row of a selection; the other row of two is [1 - i] (a negative index
    counts from the end) *)
Definition rmin (l : list R) : R := match l with [] => 0 | x :: l' => fold_left Rmin l' x end.
Definition other (ds : list corner) (i : nat) : res corner := py_index ds (1 - Z.of_nat i).
Definition argmax_row (l : list R) (ds : list corner) : res (nat * corner) :=
  match ds with [] => Raise ValueError | _ => do c <- py_index ds (Z.of_nat (argmax l)); Ok (argmax l, c) end.
(** lines 193-206 *)
Definition wrong_grid_like (lat_in lon_in : R) (cs : list corner) : res (option Z) :=
  let up := shifted lat_in lon_in (ups lat_in cs) in
  let down := shifted lat_in lon_in (downs lat_in cs) in
  let eps := / 10 * rmin (map (fun c => Rabs (clat c - lat_in)) cs) in
  do '(iu, u) <- argmax_row (map (fun d => - clat d) up) up;
  do '(id, d) <- argmax_row (map clat down) down;
  do u' <- other up iu;
  if ltb eps (Rabs (clat u - clat u')) then Ok (Some (cidx u))
  else do d' <- other down id;
       if ltb eps (Rabs (clat d - clat d')) then Ok (Some (cidx d)) else Ok None.

(** sign and isPointInTriangle: lines 281-296 *)
Definition sign3 (p1 p2 p3 : R * R) : R := (fst p1 - fst p3) * (snd p2 - snd p3) - (fst p2 - fst p3) * (snd p1 - snd p3).
Definition in_triangle (pt v1 v2 v3 : R * R) : bool :=
  let d1 := sign3 pt v1 v2 in let d2 := sign3 pt v2 v3 in let d3 := sign3 pt v3 v1 in
  negb ((ltb d1 0 || ltb d2 0 || ltb d3 0) && (ltb 0 d1 || ltb 0 d2 || ltb 0 d3))%bool.
Definition xy (c : corner) : R * R := (clat c, clon c).
(** corners_points[abs(corners_points[:,3]-i)<0.5][0] *)
Definition by_index (cs : list corner) (i : Z) : res corner := match filter (fun c => (cidx c =? i)%Z) cs with [] => Raise IndexError | c :: _ => Ok c end.
(** lines 213-255: point to exclude and the place where to look for another *)
Definition wrong_best_grid_like (lat_in lon_in : R) (cs : list corner) : res (option (Z * R * R)) :=
  let closer := nthc cs (argmin (map (fun c => Rabs (clon c - lon_in)) cs)) in
  let down := shifted lat_in (clon closer) (downs lat_in cs) in
  do '(id, d) <- argmax_row (map (fun c => - Rabs (clon c)) down) down;
  do d' <- other down id;
  let below := clon d - clon d' in
  let up := shifted lat_in (clon closer) (ups lat_in cs) in
  do '(iu, u) <- argmax_row (map (fun c => - Rabs (clon c)) up) up;
  do u' <- other up iu;
  let above := clon u - clon u' in
  if ltb (below * above) 0 then
    let '(e0, e1, i0, i1) := if leb (Rabs above) (Rabs below) then (cidx d', cidx u', cidx d, cidx u) else (cidx u', cidx d', cidx u, cidx d) in
    do ce1 <- by_index cs e1; do cu <- by_index cs (cidx u); do cd <- by_index cs (cidx d);
    let '(e, i) := if in_triangle (lat_in, lon_in) (xy ce1) (xy cu) (xy cd) then (e0, i0) else (e1, i1) in
    do ci <- by_index cs i; do ce <- by_index cs e;
    Ok (Some (e, clat ci, 2 * clon ci - clon ce))
  else Ok None.

(** lines 257-275: do the segments cross *)
Definition cross (a b : R * R) : R := fst a * snd b - snd a * fst b.
Definition vsub (a b : R * R) : R * R := (fst a - fst b, snd a - snd b).
Definition is_convex (p1 p2 p3 p4 : R * R) : bool :=
  let r := vsub p3 p1 in let s := vsub p4 p2 in
  let rxs := cross r s in
  if Req_EM_T rxs 0 then false
  else let t := cross (vsub p2 p1) s / rxs in let u := cross (vsub p2 p1) r / rxs in
       (ltb 0 t && ltb t 1 && ltb 0 u && ltb u 1)%bool.
(** lines 277-288 *)
Definition nonconvex_vertex (angle : R * R -> R * R -> R * R -> R) (q : quad) : option Z :=
  let '(p1, p2, p3, p4) := q in
  let lim := 1799 / 10 in
  if leb lim (angle (xy p1) (xy p2) (xy p3)) then Some (cidx p2)
  else if leb lim (angle (xy p2) (xy p3) (xy p4)) then Some (cidx p3)
  else if leb lim (angle (xy p3) (xy p4) (xy p1)) then Some (cidx p4)
  else if leb lim (angle (xy p4) (xy p1) (xy p2)) then Some (cidx p1)
  else None.
(** lines 313-317, for a convex quadrilateral *)
Definition in_quad (pt p1 p2 p3 p4 : R * R) : bool := (in_triangle pt p1 p2 p3 || in_triangle pt p1 p4 p3)%bool.

(** ** replacing points: lines 1079-1124 *)
Definition put_index (idx : list Z) (old new : Z) : list Z := map (fun j => if (j =? old)%Z then new else j) idx.
(** line 1095 and 1116: the n-th wrong point takes element -(n+1) *)
Fixpoint put_from_end (idx : list Z) (wrong : list Z) (n : Z) (news : list Z) : res (list Z) :=
  match wrong with
  | [] => Ok idx
  | w :: wrong' => do x <- py_index news (- (n + 1)); put_from_end (put_index idx w x) wrong' (n + 1) news
  end.
Definition distinct4 (idx : list Z) : bool := (List.length (nodup Z.eq_dec idx) =? 4)%nat.
(** lines 1337-1345 *)
Definition fn_alpha_beta (q : quad) (lat_in lon_in a b : R) : R * R :=
  let '(p1, p2, p3, p4) := q in
  ((1 - a) * (1 - b) * clat p1 + a * (1 - b) * clat p2 + a * b * clat p3 + (1 - a) * b * clat p4 - lat_in,
   (1 - a) * (1 - b) * clon p1 + a * (1 - b) * clon p2 + a * b * clon p3 + (1 - a) * b * clon p4 - lon_in).
Definition clip01 (x : R) : R := Rmax 0 (Rmin 1 x).

(** ** one cell: lines 1178-1327 *)
Section cell.
  Context {Loc : Type} (query : Loc -> nat -> list Z) (locate : R -> R -> Loc)
          (argsort : list R -> list nat) (angle : R * R -> R * R -> R * R -> R) (solve : quad -> R -> R -> R * R)
          (g : source) (global rotated : bool) (max_retries : Z).

  (** lines 1079-1098 *)
  Definition replace_index (loc : Loc) (wrong idx : list Z) (additional : Z) : res (list Z * Z) :=
    let additional' := (additional + Z.of_nat (List.length wrong))%Z in
    let news := filter (fun j => negb (zmem j idx)) (query loc (Z.to_nat (4 + additional'))) in
    do idx' <- put_from_end idx wrong 0 news; Ok (idx', additional').
  (** lines 1107-1124 *)
  Definition replace_close_to (lat lon : R) (wrong idx : list Z) : res (list Z * bool) :=
    let news := query (locate lon lat) (List.length wrong) in
    do idx' <- put_from_end idx wrong 0 news; Ok (idx', distinct4 idx').

  (** variables of the loop. [f_quad]: the attributes p1..p4, left by the cell
      before; [f_done]: a row of the table for a skipped point *)
  Record state := mkState { f_idx : list Z; f_add : Z; f_checks : bool; f_ok : bool; f_quad : option quad; f_done : option (list xr * list Z) }.

  Definition outside (lat_in lon_in : R) : bool :=
    (negb global && (ltb (fold_left Rmax (latgrib g) (nthR (latgrib g) 0)) lat_in || ltb lat_in (rmin (latgrib g))
                     || ltb (fold_left Rmax (longrib g) (nthR (longrib g) 0)) lon_in || ltb lon_in (rmin (longrib g))))%bool.
  Definition beyond_latitudes (lat_in : R) : bool := (ltb (fold_left Rmax (latgrib g) (nthR (latgrib g) 0)) lat_in || ltb lat_in (rmin (latgrib g)))%bool.

  Definition nan_row : list xr := [XNaN; XF 0; XF 0; XF 0].
  Definition first_row : list xr := [XF 1; XF 0; XF 0; XF 0].

  (** lines 1237-1270: the checks for grids on parallels *)
  Definition parallels_checks (loc : Loc) (lat_in lon_in : R) (cs : list corner) (st : state) : res state :=
    let idx := f_idx st in
    match wrong_direction lat_in lon_in cs with
    | (_ :: _) as wrong =>
        if beyond_latitudes lat_in then
          do '(idx', distinct) <- replace_close_to (180 - lat_in) lon_in wrong idx;
          if distinct then Ok (mkState idx' (f_add st) false false (f_quad st) None)
          else Ok (mkState idx' (f_add st) false true (f_quad st) (Some (first_row, idx)))
        else
          do '(idx', a) <- replace_index loc wrong idx (f_add st);
          Ok (mkState idx' a false false (f_quad st) None)
    | [] =>
        do w <- wrong_grid_like lat_in lon_in cs;
        match w with
        | Some w => do '(idx', a) <- replace_index loc [w] idx (f_add st); Ok (mkState idx' a false false (f_quad st) None)
        | None =>
            do w <- wrong_best_grid_like lat_in lon_in cs;
            match w with
            | Some (w, lat, lon) => do '(idx', _) <- replace_close_to lat lon [w] idx; Ok (mkState idx' (f_add st) false false (f_quad st) None)
            | None => Ok (mkState idx (f_add st) true false (f_quad st) None)
            end
        end
    end.
  (** lines 1271-1304 *)
  Definition quad_checks (loc : Loc) (lat_in lon_in : R) (cs : list corner) (st : state) : res state :=
    let '(p1, p2, p3, p4) as q := clockwise argsort cs in
    if (is_convex (xy p1) (xy p2) (xy p3) (xy p4) || rotated)%bool then
      if in_quad (lat_in, lon_in) (xy p1) (xy p2) (xy p3) (xy p4) then Ok (mkState (f_idx st) (f_add st) true true (Some q) None)
      else do w <- py_index (f_idx st) 3;
           do '(idx', a) <- replace_index loc [w] (f_idx st) (f_add st); Ok (mkState idx' a true false (Some q) None)
    else match nonconvex_vertex angle q with
         | None => Raise OtherError (* AssertionError, line 1292 *)
         | Some w => do '(idx', a) <- replace_index loc [w] (f_idx st) (f_add st); Ok (mkState idx' a true false (Some q) None)
         end.
  (** lines 1199-1304: the body of the loop *)
  Definition body (loc : Loc) (lat_in lon_in : R) (st : state) : res state :=
    do cs <- mapM (corner_of g lon_in) (f_idx st);
    if outside lat_in lon_in then Ok (mkState (f_idx st) (f_add st) (f_checks st) true (f_quad st) (Some (nan_row, f_idx st)))
    else do st1 <- (if f_checks st then Ok st else parallels_checks loc lat_in lon_in cs st);
         match f_done st1 with
         | Some _ => Ok st1
         | None => if f_checks st1 then quad_checks loc lat_in lon_in cs st1 else Ok st1
         end.
  (** [None]: still running after [fuel] rounds *)
  Fixpoint search (fuel : nat) (loc : Loc) (lat_in lon_in : R) (st : state) : option (res state) :=
    if (f_ok st || (max_retries <=? f_add st)%Z)%bool then Some (Ok st)
    else match fuel with
         | O => None
         | S f => match body loc lat_in lon_in st with Raise e => Some (Raise e) | Ok st' => search f loc lat_in lon_in st' end
         end.
  (** lines 1315-1325 *)
  Definition quad_row (q : quad) (lat_in lon_in : R) : list xr * list Z :=
    let '(p1, p2, p3, p4) := q in
    let '(a0, b0) := solve q lat_in lon_in in
    let a := clip01 a0 in let b := clip01 b0 in
    ([XF ((1 - a) * (1 - b)); XF (a * (1 - b)); XF (a * b); XF ((1 - a) * b)], [cidx p1; cidx p2; cidx p3; cidx p4]).
  Definition finish (lat_in lon_in : R) (st : state) : res (list xr * list Z) :=
    match f_done st with
    | Some r => Ok r
    | None => match f_quad st with None => Raise AttributeError | Some q => Ok (quad_row q lat_in lon_in) end
    end.
  (** a target cell: its location, latitude, longitude, and its nearest points *)
  Record target := mkTarget { t_loc : Loc; t_lat : R; t_lon : R; t_near : list (R * Z) }.
  Definition start (before : option quad) (t : target) : state := mkState (map snd (t_near t)) 0 rotated false before None.
  (** lines 1190-1327; the result: row of the table, p1..p4 for the next cell *)
  Definition bilinear_cell (fuel : nat) (mub : R) (before : option quad) (t : target) : option (res (list xr * list Z * option quad)) :=
    let d0 := nthR (map fst (t_near t)) 0 in
    if leb d0 eps then Some (Ok (first_row, map snd (t_near t), before))
    else if ltb mub d0 then Some (Ok (nan_row, map snd (t_near t), before))
    else match search fuel (t_loc t) (t_lat t) (t_lon t) (start before t) with
         | None => None
         | Some (Raise e) => Some (Raise e)
         | Some (Ok st) => match finish (t_lat t) (t_lon t) st with Raise e => Some (Raise e) | Ok r => Some (Ok (r, f_quad st)) end
         end.
End cell.
Arguments mkTarget {Loc}. Arguments t_loc {Loc}. Arguments t_lat {Loc}. Arguments t_lon {Loc}. Arguments t_near {Loc}.

(** ** the whole target: lines 1126-1327 *)
(** lines 1166-1168; [None]: IndexError *)
Definition is_global (g : source) : res bool :=
  do a <- py_index (longrib g) 0; do b <- py_index (longrib g) 1;
  Ok (ltb (360 - (fold_left Rmax (longrib g) a - rmin (longrib g))) (Rabs (a - b) * (3 / 2))).
Section table.
  Context {Loc : Type} (query : Loc -> nat -> list Z) (locate : R -> R -> Loc)
          (argsort : list R -> list nat) (angle : R * R -> R * R -> R * R -> R) (solve : quad -> R -> R -> R * R).
  (** all cells, in order; the loop of one cell has [fuel] rounds *)
  Fixpoint bilinear_cells (g : source) (global rotated : bool) (retries : Z) (fuel : nat) (mub : R) (before : option quad) (cells : list (@target Loc)) : option (res (list (list xr * list Z))) :=
    match cells with
    | [] => Some (Ok [])
    | t :: cells' =>
        match bilinear_cell query locate argsort angle solve g global rotated retries fuel mub before t with
        | None => None
        | Some (Raise e) => Some (Raise e)
        | Some (Ok (r, q)) => match bilinear_cells g global rotated retries fuel mub q cells' with
                              | Some (Ok rs) => Some (Ok (r :: rs)) | x => x end
        end
    end.
  (** [rows]: rows of the target (or of the part of it); line 1155, 1205: 20 for
      rotated grids *)
  Definition build_bilinear (g : source) (rotated : bool) (rows : Z) (isatty : bool) (fuel : nat) (mub : R) (cells : list (@target Loc)) : option (res (list (list xr * list Z))) :=
    match is_global g with
    | Raise e => Some (Raise e)
    | Ok global =>
        if ((progress_step (Z.of_nat (List.length cells)) isatty =? 0)%Z && negb (match cells with [] => true | _ => false end))%bool then Some (Raise ZeroDivisionError)
        else bilinear_cells g global rotated (if rotated then 20 else rows) fuel mub None cells
    end.
End table.
