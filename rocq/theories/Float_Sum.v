(** * Float_Sum: sums of numpy in double precision.

    [np.sum] (scipy_interpolation_lib.py:1022-1026: the sums by which weights are
    divided) and [np.einsum('ij,ij->i', weights, v)] (interpolation/__init__.py:155)
    leave the order of the additions to the build of numpy (pairwise blocks,
    SIMD lanes), and einsum may fuse a multiplication with an addition. All
    these evaluations are modelled by relations. *)
From Verif Require Import Base Num Float64 Interp Scipy.
From Coq Require Import Permutation.

(** [sum_any l r]: adding the elements of [l] in some order and bracketing gives [r] *)
Inductive sum_any : list num -> num -> Prop :=
| sa_nil : sum_any [] (Fin 0)
| sa_one x : sum_any [x] x
| sa_add l l1 l2 a b : Permutation l (l1 ++ l2) -> sum_any l1 a -> sum_any l2 b -> sum_any l (fadd a b).

(** [einsum_any l r]: the sum of the products of the pairs of [l], each product
    rounded or fused with an addition *)
Inductive einsum_any : list (num * num) -> num -> Prop :=
| ea_nil : einsum_any [] (Fin 0)
| ea_prod w v : einsum_any [(w, v)] (fmul w v)
| ea_add l l1 l2 a b : Permutation l (l1 ++ l2) -> einsum_any l1 a -> einsum_any l2 b -> einsum_any l (fadd a b)
| ea_fma l l1 w v a : Permutation l ((w, v) :: l1) -> einsum_any l1 a -> einsum_any l (nround (nadd (nmul w v) a)).

(** interpolation/__init__.py:148-155, one row of a table with [nnear > 1]: as
    [weighted_row] of Interp.v, in double precision *)
Definition weighted_row64 (w vals : list num) (r : num) : Prop :=
  List.length w = List.length vals /\ einsum_any (combine w vals) r.

(** the whole table: interpolation/__init__.py:146-155, as [apply_weighted] *)
Definition apply_weighted64 (v : arr) (mv : num) (table : list (list num * list Z)) (out : list num) : Prop :=
  Forall2 (fun row r => exists vals, mapM (py_index (append_mv v mv)) (snd row) = Ok vals /\ weighted_row64 (fst row) vals r) table out.

(** scipy_interpolation_lib.py:1021-1026 [weights = w / sums] for one target cell *)
Definition normalised64 (w : list num) (out : list num) : Prop :=
  exists s, sum_any w s /\ out = map (fun x => fdiv x s) w.

(** scipy_interpolation_lib.py:812 (mode invdist) [w = 1. / distances ** 2];
    numpy computes [d ** 2] as [d * d] *)
Definition inv_square64 (d : num) : num := fdiv (nint 1) (fmul d d).
(** 1e-10 as a literal of Python *)
Definition eps10_64 : num := nround eps10.
(** one row of mode invdist: scipy_interpolation_lib.py:797-815, 1021-1026, as
    [invdist_weights] of Scipy.v, in double precision *)
Definition invdist_weights64 (mub : num) (c : neighbours) (out : list num) : Prop :=
  if leb_num (first_dist c) eps10_64 then out = only_first (List.length c)
  else if leb_num (first_dist c) mub then normalised64 (map (fun p => inv_square64 (fst p)) c) out
  else out = repeat NaN (List.length c).
