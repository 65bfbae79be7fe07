(** * Num: numbers and (masked) arrays of cells.

    float64 values are modelled by exact rationals extended with the two
    infinities and NaN; rounding is not modelled (see DESIGN.md, trusted base).
    Zero is unsigned. *)
From Verif Require Import Base.
From Coq Require Export QArith Qcanon.
Local Open Scope Qc_scope.

Definition Qc_eqb (a b : Qc) : bool := if Qc_eq_dec a b then true else false.
Definition Qc_ltb (a b : Qc) : bool := if Qclt_le_dec a b then true else false.
Definition Qc_leb (a b : Qc) : bool := negb (Qc_ltb b a).

Definition ZQ (z : Z) : Qc := Q2Qc (inject_Z z).

(** A float64 cell. *)
Inductive num : Type := Fin (q : Qc) | PInf | MInf | NaN.

Definition nopp (a : num) : num :=
  match a with Fin q => Fin (- q) | PInf => MInf | MInf => PInf | NaN => NaN end.

Definition nadd (a b : num) : num :=
  match a, b with
  | NaN, _ | _, NaN => NaN
  | Fin x, Fin y => Fin (x + y)
  | Fin _, b => b
  | a, Fin _ => a
  | PInf, PInf => PInf
  | MInf, MInf => MInf
  | _, _ => NaN
  end.

Definition nsub (a b : num) : num := nadd a (nopp b).

(** infinity carrying the sign of [q]; 0 * inf is NaN *)
Definition inf_times (q : Qc) (pos : bool) : num :=
  if Qc_eqb q 0 then NaN
  else if Bool.eqb (Qc_ltb 0 q) pos then PInf else MInf.

Definition nmul (a b : num) : num :=
  match a, b with
  | NaN, _ | _, NaN => NaN
  | Fin x, Fin y => Fin (x * y)
  | Fin x, PInf | PInf, Fin x => inf_times x true
  | Fin x, MInf | MInf, Fin x => inf_times x false
  | PInf, PInf | MInf, MInf => PInf
  | PInf, MInf | MInf, PInf => MInf
  end.

Definition ndiv (a b : num) : num :=
  match a, b with
  | NaN, _ | _, NaN => NaN
  | Fin x, Fin y =>
      if Qc_eqb y 0
      then (if Qc_eqb x 0 then NaN else if Qc_ltb 0 x then PInf else MInf)
      else Fin (x / y)
  | Fin _, _ => Fin 0
  | PInf, Fin y => if Qc_ltb y 0 then MInf else PInf
  | MInf, Fin y => if Qc_ltb y 0 then PInf else MInf
  | _, _ => NaN
  end.

(** IEEE comparisons: every comparison with NaN is false. *)
Definition neqb (a b : num) : bool :=
  match a, b with
  | Fin x, Fin y => Qc_eqb x y
  | PInf, PInf | MInf, MInf => true
  | _, _ => false
  end.
Definition nltb (a b : num) : bool :=
  match a, b with
  | NaN, _ | _, NaN => false
  | Fin x, Fin y => Qc_ltb x y
  | MInf, MInf => false
  | MInf, _ => true
  | _, PInf => match a with PInf => false | _ => true end
  | _, _ => false
  end.
Definition is_nan (a : num) : bool := match a with NaN => true | _ => false end.

(** a Python int used in an array expression *)
Definition nint (z : Z) : num := Fin (ZQ z).

(** ** Arrays (flattened).  [Nd] is numpy.ndarray, [Ma] numpy.ma.MaskedArray;
    [None] is numpy.ma.nomask. *)
Inductive arr : Type :=
| Nd (d : list num)
| Ma (d : list num) (m : option (list bool)).

Definition adata (a : arr) : list num := match a with Nd d => d | Ma d _ => d end.
Definition amask (a : arr) : option (list bool) :=
  match a with Nd _ => None | Ma _ m => m end.
Definition asize (a : arr) : nat := List.length (adata a).

(** [np.zeros(shape)] *)
Definition zeros (n : nat) : list num := repeat (Fin 0) n.

(** element-wise binary operation; different sizes raise ValueError
    (broadcasting of size-1 arrays is not used by pyg2p and not modelled) *)
Fixpoint zipw {A B C} (f : A -> B -> C) (x : list A) (y : list B) : list C :=
  match x, y with
  | a :: x', b :: y' => f a b :: zipw f x' y'
  | _, _ => []
  end.
Definition ew2 {A B C} (f : A -> B -> C) (x : list A) (y : list B) : res (list C) :=
  if Nat.eqb (List.length x) (List.length y) then Ok (zipw f x y) else Raise ValueError.

(** [a | b] on masks, [nomask] being neutral *)
Definition mask_or (a b : option (list bool)) : option (list bool) :=
  match a, b with
  | None, m | m, None => m
  | Some x, Some y => Some (zipw orb x y)
  end.

(** util/numeric.py:30-36 [get_masks] on two arguments: the union of the masks
    of the arguments that are MaskedArrays. ([None] stands both for Python's
    [None] and for [nomask]; [ma.masked_where] treats them alike.) *)
Definition get_masks (xs : list arr) : option (list bool) :=
  fold_left (fun m a => mask_or m (amask a)) xs None.

(** [ma.masked_where(m, d)]: a mask with no True shrinks to nomask. *)
Definition masked_where (m : option (list bool)) (d : list num) : arr :=
  match m with
  | Some l => if existsb (fun b => b) l then Ma d (Some l) else Ma d None
  | None => Ma d None
  end.

(** data of [a * k] for a scalar [k]: numpy.ma keeps the original data under
    masked cells. *)
Definition ma_scale_data (a : arr) (k : num) : list num :=
  match a with
  | Nd d | Ma d None => map (fun x => nmul x k) d
  | Ma d (Some m) => zipw (fun x b => if (b : bool) then x else nmul x k) d m
  end.

(** well-formed: the mask, if any, has the size of the data *)
Definition wf_arr (a : arr) : Prop :=
  match a with
  | Ma d (Some m) => List.length m = List.length d
  | _ => True
  end.

(** Is cell [i] masked? *)
Definition masked_at (a : arr) (i : nat) : bool :=
  match amask a with Some m => nth i m false | None => false end.

(** decidable equality up to proofs, for computing examples *)
Definition num_same (a b : num) : bool :=
  match a, b with
  | Fin x, Fin y => Qc_eqb x y
  | PInf, PInf | MInf, MInf | NaN, NaN => true
  | _, _ => false
  end.
