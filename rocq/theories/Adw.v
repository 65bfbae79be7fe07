(** * Adw: angular distance weights and correlation distance decay
    (src/pyg2p/main/interpolation/scipy_interpolation_lib.py:310-511, 774-1075).

    One target cell is a row of the vectorised code: the distances of its
    neighbours in ascending order and, for each of them, the difference of
    latitude and longitude. Distances are finite (there are at least as many
    source points as neighbours, otherwise line 952 or 491 raises IndexError). *)
From Verif Require Import Base Num Xr Scipy.
Local Open Scope R_scope.

(** ** the radius of Shepard, lines 335-358 *)
Definition gtb (a b : R) : bool := if Rlt_dec b a then true else false.
Definition leb (a b : R) : bool := if Rle_dec a b then true else false.
Definition nthR (l : list R) (i : nat) : R := nth i l 0.
Definition shepard_radius (ref : R) (ds : list R) : R :=
  if gtb (nthR ds 3) ref then nthR ds 4 else if gtb (nthR ds 9) ref then ref else nthR ds 10.
(** lines 364-371 *)
Definition shepard_s (r d : R) : xr :=
  if leb d (r / 3) then xdiv (XF 1) (XF d)
  else if leb d r then XF (27 / (4 * r) * (d / r - 1) ^ 2)
  else XF 0.

(** ** directional weights *)
(** differences of latitude and longitude of one neighbour *)
Notation diff := (R * R)%type.
Definition norm2 (a : diff) : R := sqrt (fst a ^ 2 + snd a ^ 2).
(** lines 962, 500 *)
Definition cos_theta (a b : diff) : xr := xdiv (XF (fst a * fst b + snd a * snd b)) (XF (norm2 a * norm2 b)).
Definition without {A} (i : nat) (l : list A) : list A := firstn i l ++ skipn (S i) l.
(** lines 965-969 *)
Definition dir_ratio (cs sj : list xr) : xr := xdiv (xsum (zipw (fun c s => xmul (xsub (XF 1) c) s) cs sj)) (xsum sj).
Definition dir_loop_at (diffs : list diff) (s : list xr) (i : nat) : xr :=
  dir_ratio (without i (map (cos_theta (nth i diffs (0, 0))) diffs)) (without i s).
(** lines 945-969: one row *)
Definition dir_loop (diffs : list diff) (s : list xr) : list xr := map (dir_loop_at diffs s) (seq 0 (List.length diffs)).

(** lines 476-511: all rows at once. Arrays of shape (n,k,k) are flat lists.
    numpy's strided view of [a.ravel()[1:]] with shape (n, m-1, m) and strides
    of m*m, m+1 and 1 elements, copied and reshaped to (n, m, m-1) *)
Definition strided (flat : list xr) (n m : nat) : list xr :=
  map (fun q => let c := (q / ((m - 1) * m))%nat in let q' := (q mod ((m - 1) * m))%nat in
                nth (1 + c * (m * m) + q' / m * (m + 1) + q' mod m) flat XNaN) (seq 0 (n * (m * (m - 1)))).
(** rows of [w] elements *)
Fixpoint chunk (w n : nat) (l : list xr) : list (list xr) := match n with O => [] | S n' => firstn w l :: chunk w n' (skipn w l) end.
(** cos_theta and sj, lines 500, 511: element [c,i,j] *)
Definition cos_flat (rows : list (list diff * list xr)) : list xr := List.concat (map (fun r => List.concat (map (fun a => map (cos_theta a) (fst r)) (fst r))) rows).
Definition sj_flat (rows : list (list diff * list xr)) : list xr := List.concat (map (fun r => List.concat (map (fun _ => snd r) (fst r))) rows).
Definition dir_broadcast (rows : list (list diff * list xr)) (m : nat) : list (list xr) :=
  let n := List.length rows in
  let cs := chunk (m - 1) (n * m) (strided (cos_flat rows) n m) in
  let sj := chunk (m - 1) (n * m) (strided (sj_flat rows) n m) in
  chunk m n (zipw dir_ratio cs sj).

(** ** Shepard: lines 823-835, 976-1012, 1037-1052 *)
Definition one_hot (k : nat) : list xr := match k with O => [] | S k' => XF 1 :: repeat (XF 0) k' end.
Definition normalised (w : list xr) : list xr := map (fun x => xdiv x (xsum w)) w.
Definition eps : R := / 10000000000.
Definition shepard_weights (ref : R) (ds : list R) (dirs : list xr) : list xr :=
  let s := map (shepard_s (shepard_radius ref ds)) ds in
  let w := map (fun x => xmul x x) s in
  let w' := zipw (fun a b => xmul a (xadd (XF 1) b)) w (map nan_to_one dirs) in
  if leb (nthR ds 0) eps then one_hot (List.length ds) else normalised w'.
Definition shepard_row (ref : R) (c : list R * list diff) : list xr :=
  shepard_weights ref (fst c) (dir_loop (snd c) (map (shepard_s (shepard_radius ref (fst c))) (fst c))).

(** lines 940-987: all cells, with either computation of the directional
    weights; lines 847, 924: [s] of each cell *)
Definition directional_weights (broadcasting : bool) (rows : list (list diff * list xr)) (k : nat) : list (list xr) :=
  if broadcasting then dir_broadcast rows k else map (fun r => dir_loop (fst r) (snd r)) rows.
Definition shepard_rows (broadcasting : bool) (ref : R) (cells : list (list R * list diff)) : list (list xr) :=
  zipw (fun c dirs => shepard_weights ref (fst c) dirs) cells
       (directional_weights broadcasting (map (fun c => (snd c, map (shepard_s (shepard_radius ref (fst c))) (fst c))) cells) 11).

(** ** mode adw on a whole target (or a part of it) *)
(** [tree]: distances and indexes of the neighbours; [dif p i]: difference of
    latitude and longitude of target and source point. Line 335: without a
    reference radius, the mean of the seventh distances *)
Definition mean7 {Loc} (tree : nat -> Loc -> list (R * Z)) (k : nat) (cells : list Loc) : R :=
  rsum (map (fun p => nthR (map fst (tree k p)) 6) cells) / INR (List.length cells).
(** distances and differences of one cell *)
Definition cell_of {Loc} (tree : nat -> Loc -> list (R * Z)) (dif : Loc -> Z -> diff) (p : Loc) : list R * list diff :=
  let c := tree 11%nat p in (map fst c, map (fun x => dif p (snd x)) c).
Definition part_adw {Loc} (broadcasting : bool) (tree : nat -> Loc -> list (R * Z)) (dif : Loc -> Z -> diff) (ref : option R) (rows : list (list Loc)) : res (table xr) :=
  let cells := List.concat rows in
  let r := match ref with Some r => r | None => mean7 tree 11 cells end in
  Ok (Mat (zipw (fun p w => (w, map snd (tree 11%nat p))) cells (shepard_rows broadcasting r (map (cell_of tree dif) cells)))).
(** lines 573-585: the reference radius of all cells, from a query of seven
    neighbours *)
Definition radius_adw {Loc} (tree : nat -> Loc -> list (R * Z)) (rows : list (list Loc)) : option R := Some (mean7 tree 7 (List.concat rows)).

(** ** correlation distance decay *)
(** lines 375-405: one row; [cdd] in metres *)
Definition hofstra_s (cdd : R) (ds : list R) : list xr :=
  map (fun d => if gtb (nthR ds 2) cdd then XF 0 else if leb d cdd then XF (exp (- d * 4 / cdd)) else XF 0) ds.
(** lines 407-453 *)
Definition mix_radius (cdd : R) (nnear minst : nat) (ds : list R) : R :=
  if gtb (nthR ds (minst - 1)) cdd then nthR ds minst else if gtb (nthR ds (nnear - 2)) cdd then cdd else nthR ds (nnear - 1).
Definition mix_s_at (m ratio r d : R) : R :=
  if leb d (r * ratio) then exp (- d * m / r)
  else if leb d r then 1 / (ratio - 1) ^ 2 * exp (- m * ratio) * (d / r - 1) ^ 2
  else 0.
Definition mix_s (cdd : R) (nnear minst : nat) (m ratio : R) (ds : list R) : list xr :=
  map (fun d => XF (mix_s_at m ratio (mix_radius cdd nnear minst ds) d)) ds.
(** lines 456-474: each station has its own cdd. astype(int) cuts the
    decimals; np.clip; [CDD_map] has as many columns in each row *)
Definition truncate (x : R) : Z := if Rle_dec 0 x then Int_part x else (- Int_part (- x))%Z.
Definition clip (n : nat) (z : Z) : nat := Z.to_nat (Z.max 0 (Z.min z (Z.of_nat n - 1))).
Definition station_cdd (cdd_map : list (list R)) (lat0 lon0 latres lonres lat lon : R) : R :=
  let row := nth (clip (List.length cdd_map) (truncate ((lat0 - lat) / latres))) cdd_map [] in
  nth (clip (List.length row) (truncate ((lon0 - lon) / lonres))) row 0.
Definition newetal_s (cdds : list R) (ds : list R) : list xr :=
  zipw (fun cdd d => if leb d cdd then XF (exp (- d * 4 / cdd)) else XF 0) cdds ds.
(** line 919: argpartition gives the columns with the smallest values first;
    all but the last ten are set to zero *)
Definition only_top10 (part : list xr -> list nat) (s : list xr) : list xr :=
  let idx := part s in let drop := firstn (List.length idx - 10) idx in
  map (fun i => if existsb (Nat.eqb i) drop then XF 0 else nth i s XNaN) (seq 0 (List.length s)).
(** lines 976-1012: directional weights normalised *)
Definition cdd_weights (s dirs : list xr) : list xr :=
  let d := map nan_to_one dirs in
  let d' := map (fun x => xdiv x (xsum d)) d in
  normalised (zipw (fun a b => xmul a (xadd (XF 1) b)) s d').
Definition cdd_row (s : list xr) (diffs : list diff) : list xr := cdd_weights s (dir_loop diffs s).
Definition cdd_rows (broadcasting : bool) (cells : list (list diff * list xr)) (k : nat) : list (list xr) :=
  zipw (fun c dirs => cdd_weights (snd c) dirs) cells (directional_weights broadcasting cells k).

(** lines 892-899: the options, in the order of the command file. A number is
    an integer or a float; numpy and numba refuse texts in arithmetic and
    indexes that are not integers. Negative station numbers are not modelled
    (an index error here), nor what compiled code does with an index out of
    bounds (an index error here too). *)
Inductive optval := OInt (z : Z) | OFlt (r : R) | OStr (s : string).
Record mix_options := mkMix { o_m : R; o_min : nat; o_ratio : R; o_weights : optval }.
Definition opt_real (o : optval) : res R := match o with OInt z => Ok (IZR z) | OFlt r => Ok r | OStr _ => Raise TypeError end.
Definition opt_index (o : optval) : res nat := match o with OInt z => if (z <? 1)%Z then Raise IndexError else if (z <=? 10)%Z then Ok (Z.to_nat z) else Raise IndexError | _ => Raise TypeError end.
Definition read_options (o : option (list (string * optval))) : res mix_options :=
  match o with
  | None => Ok (mkMix 4 4 (1 / 3) (OStr "All"))
  | Some d => match map snd d with
              | [a; b; c; e] => do a' <- opt_real a; do b' <- opt_index b; do c' <- opt_real c; Ok (mkMix a' b' c' e)
              | _ => Raise ValueError
              end
  end.

(** ** mode cdd on a part of the target, lines 846-924. [lat], [lon]: of a
    target cell; [slat], [slon]: of a source point. The map of cdd values is
    read whole: numpy cannot combine arrays of different lengths (the checks of
    lines 871-886 build an exception without raising it; a map of one value
    would be broadcast, which is not modelled) *)
Section cdd.
Context {Loc : Type} (tree : nat -> Loc -> list (R * Z)) (lat lon : Loc -> R) (slat slon : Z -> R) (argpartition : list xr -> list nat).
Definition dif_of (p : Loc) (i : Z) : diff := (lat p - slat i, lon p - slon i).
(** lines 901-909, from the first row and column: the origin and the resolution of the part *)
Definition grid_of (rows : list (list Loc)) : res (R * R * R * R) :=
  match rows with
  | (p :: q :: _) :: (p' :: _) :: _ => Ok (lat p, lon p, lat p - lat p', lon p - lon q)
  | _ => Raise IndexError
  end.
Definition cdd_s (mode : string) (opts : option (list (string * optval))) (cdd_map : list (list R)) (rows : list (list Loc)) : res (list (list xr)) :=
  let cells := List.concat rows in
  let flat := List.concat cdd_map in
  if String.eqb mode "Hofstra" then
    if Nat.eqb (List.length flat) (List.length cells) then Ok (zipw (fun p cdd => hofstra_s cdd (map fst (tree 11%nat p))) cells flat) else Raise ValueError
  else if String.eqb mode "MixHofstraShepard" then
    do o <- read_options opts;
    if Nat.eqb (List.length flat) (List.length cells) then
      let s := zipw (fun p cdd => mix_s cdd 11 (o_min o) (o_m o) (o_ratio o) (map fst (tree 11%nat p))) cells flat in
      Ok (match o_weights o with OStr w => if String.eqb w "OnlyTOP10" then map (only_top10 argpartition) s else s | _ => s end)
    else Raise ValueError
  else if String.eqb mode "NewEtAl" then
    do g <- grid_of rows;
    let '(lat0, lon0, latres, lonres) := g in
    Ok (map (fun p => newetal_s (map (fun x => station_cdd cdd_map lat0 lon0 latres lonres (slat (snd x)) (slon (snd x))) (tree 11%nat p)) (map fst (tree 11%nat p))) cells)
  else Raise OtherError.
Definition part_cdd (broadcasting : bool) (mode : string) (opts : option (list (string * optval))) (cdd_map : list (list R)) (_ : option R) (rows : list (list Loc)) : res (table xr) :=
  do s <- cdd_s mode opts cdd_map rows;
  let cells := List.concat rows in
  Ok (Mat (zipw (fun p w => (w, map snd (tree 11%nat p))) cells (cdd_rows broadcasting (zipw (fun p s => (snd (cell_of tree dif_of p), s)) cells s) 11))).
End cdd.
