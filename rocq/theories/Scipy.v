(** * Scipy: tables built with a KD-tree
    (src/pyg2p/main/interpolation/scipy_interpolation_lib.py): the search bound
    (558-570), splitting of the target (572-612), modes nearest (698-727) and
    invdist (774-815, 995-1075).

    The KD-tree is an oracle: for a target location and a number of neighbours
    it gives their distances, in ascending order, and indexes (a missing
    neighbour: infinite distance, index one past the end). Not modelled:
    printing, float32, the values interpolated on the way (the caller drops
    them), apart from the errors they can raise. *)
From Verif Require Import Base Num Strings.
Local Open Scope Z_scope.

Definition neighbours := list (num * Z).
Definition leb_num (a b : num) : bool := (nltb a b || neqb a b)%bool.
Definition eps10 : num := Fin (Q2Qc (1 # 10000000000)).
Definition first_dist (c : neighbours) : num := match c with (d, _) :: _ => d | [] => NaN end.

(** lines 566-570: [seconds] are the distances from every source point to its
    second neighbour (the first is the point itself). [None]: Nj missing.
    Nj = 0: the distances are numpy numbers, whose division by 0 gives inf or
    nan and only warns. *)
Definition np_max (l : list num) : num := fold_left (fun a b => if is_nan a then a else if is_nan b then b else if nltb a b then b else a) (List.tl l) (List.hd NaN l).
Definition min_upper_bound (seconds : list num) (nj : option Z) : res num :=
  match nj with
  | None => Raise TypeError
  | Some n => Ok (nadd (np_max seconds) (ndiv (nmul (np_max seconds) (nint 4)) (nint n)))
  end.

(** ** nearest: lines 698-727. The table has one distance and one index per
    target; [zsize] source values. *)
Definition nn_cell (mub : num) (zsize : nat) (c : num * Z) : res (num * Z) :=
  let '(d, ix) := c in
  if leb_num d mub then do _ <- py_index (repeat tt zsize) ix; Ok (d, ix) else Ok (d, Z.of_nat zsize).
Definition build_nn (mub : num) (zsize : nat) (isatty : bool) (cells : list (num * Z)) : res (list (num * Z)) :=
  if (progress_step (Z.of_nat (List.length cells)) isatty =? 0) && negb (match cells with [] => true | _ => false end)
  then Raise ZeroDivisionError else mapM (nn_cell mub zsize) cells.

(** ** invdist: one row of the vectorised code *)
Definition only_first (k : nat) : list num := match k with O => [] | S k' => nint 1 :: repeat (nint 0) k' end.
Definition nsum (l : list num) : num := fold_left nadd l (nint 0).
(** lines 807-815, 1020-1022 *)
Definition invdist_weights (mub : num) (c : neighbours) : list num :=
  if leb_num (first_dist c) eps10 then only_first (List.length c)
  else if leb_num (first_dist c) mub then
    let w := map (fun p => ndiv (nint 1) (nmul (fst p) (fst p))) c in map (fun x => ndiv x (nsum w)) w
  else repeat NaN (List.length c).
(** lines 805, 1060-1061 *)
Definition invdist_indexes (mub : num) (zsize : nat) (c : neighbours) : list Z :=
  if (leb_num (first_dist c) eps10 || leb_num (first_dist c) mub)%bool then map snd c else repeat (Z.of_nat zsize) (List.length c).
(** line 1035 reads [z] at every neighbour *)
Definition invdist_cell (mub : num) (zsize : nat) (c : neighbours) : res (list num * list Z) :=
  do _ <- mapM (py_index (repeat tt zsize)) (map snd c);
  Ok (invdist_weights mub c, invdist_indexes mub zsize c).

(** ** splitting the target: lines 572-612 *)
(** tables of a part of the target: one row per cell, or (nearest) 1-D arrays *)
Inductive table (W : Type) : Type := Flat (l : list (W * Z)) | Mat (rows : list (list W * list Z)).
Arguments Flat {W}. Arguments Mat {W}.
(** assignment to a slice of rows, clipped at the end; a 1-D array of one
    element has the shape of a row of one element, otherwise shapes differ *)
Definition as_rows {W} (t : table W) : res (list (list W * list Z)) :=
  match t with
  | Mat rows => Ok rows
  | Flat [(w, i)] => Ok [([w], [i])]
  | Flat _ => Raise ValueError
  end.
Definition store {W} (a : list (option (list W * list Z))) (lo hi : nat) (t : table W) : res (list (option (list W * list Z))) :=
  do rows <- as_rows t;
  if Nat.eqb (List.length rows) (Nat.min hi (List.length a) - Nat.min lo (List.length a)) then Ok (firstn lo a ++ map Some rows ++ skipn (lo + List.length rows) a)
  else Raise ValueError.
(** [rows]: the target, [cols] cells per row. [radius]: the reference radius
    computed from all cells (mode adw). [None] in the result: memory never
    written. *)
Definition interpolate_splits {Loc W Rad} (part : option Rad -> list (list Loc) -> res (table W)) (radius : list (list Loc) -> option Rad)
    (splits : Z) (rows : list (list Loc)) (cols : nat) : res (list (option (list W * list Z))) :=
  let ref := radius rows in
  let nrows := Z.of_nat (List.length rows) in
  if splits =? 0 then Raise ZeroDivisionError
  else let size := nrows / splits in
       do starts <- py_range 0 nrows size;
       foldM (fun a i => do t <- part ref (firstn (Z.to_nat size) (skipn (Z.to_nat i) rows));
                         store a (Z.to_nat i * cols) (Z.to_nat (i + size) * cols) t)
             starts (repeat None (List.length rows * cols)).
Definition interpolate_whole {Loc W Rad} (part : option Rad -> list (list Loc) -> res (table W)) (rows : list (list Loc)) : res (table W) :=
  part None rows.

(** the parts, lines 614-663: each target location is looked up in the tree *)
Definition part_nearest {Loc} (tree : nat -> Loc -> neighbours) (mub : num) (zsize : nat) (isatty : bool) (_ : option num) (rows : list (list Loc)) : res (table num) :=
  do cells <- mapM (fun p => match tree 1%nat p with c :: _ => Ok c | [] => Raise IndexError end) (List.concat rows);
  do l <- build_nn mub zsize isatty cells; Ok (Flat l).
Definition part_invdist {Loc} (tree : nat -> Loc -> neighbours) (mub : num) (zsize : nat) (_ : option num) (rows : list (list Loc)) : res (table num) :=
  do l <- mapM (fun p => invdist_cell mub zsize (tree 4%nat p)) (List.concat rows); Ok (Mat l).

(** ** lines 523-563 and 572-612 with mode invdist, without splits: the number of
    coordinates is compared with the number of values, but the exception made
    for the difference is not raised (line 556) *)
Definition check_counts (coordinates values : nat) : res unit :=
  if Nat.eqb coordinates values then Ok tt else Ok tt.
Definition scipy_invdist {Loc} (tree : nat -> Loc -> neighbours) (mub : num) (coordinates values : nat) (rows : list (list Loc)) : res (table num) :=
  do _ <- check_counts coordinates values; interpolate_whole (part_invdist tree mub values) rows.
