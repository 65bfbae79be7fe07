(** * Spec_Convert: what converting / cutting / correcting a field means. *)
From Verif Require Import Base Num.

(** [v] is the missing value [mv] *)
Definition is_missing (mv v : num) : Prop := neqb v mv = true.

(** [a'] is [a] with [g] applied to every cell that is not missing; missing
    cells and the mask are those of [a] *)
Definition converted (g : num -> num) (mv : num) (a a' : arr) : Prop :=
  asize a' = asize a /\
  forall i v, nth_error (adata a) i = Some v ->
    (is_missing mv v -> nth_error (adata a') i = Some v) /\
    (~ is_missing mv v -> nth_error (adata a') i = Some (g v)) /\
    masked_at a' i = masked_at a i.

(** cell [i] of [a], whatever number it is *)
Definition has_cell (a : arr) (i : nat) (v : num) : Prop := nth_error (adata a) i = Some v.
