(** * BilinearSplits: mode bilinear with num_of_splits
    (main/interpolation/scipy_interpolation_lib.py:572-612, 1125-1334)

    Every part of the target is built by _build_weights_bilinear. The number of
    retries of a cell is the number of rows of the part (line 1154), and the
    attributes p1..p4 of the last quadrilateral live on from part to part. *)
From Verif Require Import Base Num Strings Xr Adw Bilinear Scipy.
Local Open Scope Z_scope.

(** a row of a table *)
Notation brow := (list xr * list Z)%type.
Section splits.
  Context {Loc : Type} (query : Loc -> nat -> list Z) (locate : R -> R -> Loc)
          (argsort : list R -> list nat) (angle : R * R -> R * R -> R * R -> R) (solve : quad -> R -> R -> R * R)
          (g : source) (rotated isatty : bool) (fuel : nat) (mub : R).
  (** lines 1169-1327, as [bilinear_cells], with the attributes p1..p4 left *)
  Fixpoint cells_left (global : bool) (retries : Z) (before : option quad) (cells : list (@target Loc)) : option (res (list brow * option quad)) :=
    match cells with
    | [] => Some (Ok ([], before))
    | t :: cells' =>
        match bilinear_cell query locate argsort angle solve g global rotated retries fuel mub before t with
        | None => None
        | Some (Raise e) => Some (Raise e)
        | Some (Ok (r, q)) => match cells_left global retries q cells' with
                              | Some (Ok (rs, q')) => Some (Ok (r :: rs, q')) | x => x end
        end
    end.
  (** lines 1125-1334: one part, as [build_bilinear] *)
  Definition bilinear_part (before : option quad) (rows : list (list (@target Loc))) : option (res (list brow * option quad)) :=
    match is_global g with
    | Raise e => Some (Raise e)
    | Ok global =>
        let cells := List.concat rows in
        if ((progress_step (Z.of_nat (List.length cells)) isatty =? 0) && negb (match cells with [] => true | _ => false end))%bool then Some (Raise ZeroDivisionError)
        else cells_left global (if rotated then 20 else Z.of_nat (List.length rows)) before cells
    end.
  (** lines 596-607 *)
  Fixpoint parts_loop (size : Z) (rows : list (list (@target Loc))) (cols : nat) (starts : list Z) (before : option quad) (a : list (option brow)) : option (res (list (option brow))) :=
    match starts with
    | [] => Some (Ok a)
    | i :: starts' =>
        match bilinear_part before (firstn (Z.to_nat size) (skipn (Z.to_nat i) rows)) with
        | None => None
        | Some (Raise e) => Some (Raise e)
        | Some (Ok (t, q)) => match store a (Z.to_nat i * cols) (Z.to_nat (i + size) * cols) (Mat t) with
                              | Raise e => Some (Raise e)
                              | Ok a' => parts_loop size rows cols starts' q a'
                              end
        end
    end.
  (** lines 572-612 *)
  Definition bilinear_splits (splits : Z) (rows : list (list (@target Loc))) (cols : nat) : option (res (list (option brow))) :=
    let nrows := Z.of_nat (List.length rows) in
    if splits =? 0 then Some (Raise ZeroDivisionError)
    else let size := nrows / splits in
         match py_range 0 nrows size with
         | Raise e => Some (Raise e)
         | Ok starts => parts_loop size rows cols starts None (repeat None (List.length rows * cols))
         end.
  (** line 609: without splits *)
  Definition bilinear_whole (rows : list (list (@target Loc))) : option (res (list brow)) :=
    build_bilinear query locate argsort angle solve g rotated (Z.of_nat (List.length rows)) isatty fuel mub (List.concat rows).
End splits.
