(** * Specification vocabulary: rounding *)
From Coq Require Import Qcabs.
From Verif Require Import Base Num Float64 Aggregator Spec_Aggregation.
Local Open Scope Z_scope.

(** arrays of the same kind and size with the same masked cells *)
Definition same_form (a b : arr) : Prop :=
  match a, b with
  | Nd d, Nd d' => List.length d = List.length d'
  | Ma d m, Ma d' m' => List.length d = List.length d' /\ m = m'
  | _, _ => False
  end.

(** both succeed with related results, or both fail with the same error *)
Definition same_outcome {A} (R : A -> A -> Prop) (x y : res A) : Prop :=
  match x, y with
  | Ok a, Ok b => R a b
  | Raise e, Raise e' => e = e'
  | _, _ => False
  end.

(** the same steps in the same order, with fields of the same form *)
Definition same_windows (a b : fields) : Prop :=
  Forall2 (fun x y => fst x = fst y /\ same_form (snd x) (snd y)) a b.

(** every cell of every field is a binary64 number, far from overflow *)
Definition double_fields (values : fields) : Prop :=
  forall k a, In (k, a) values -> forall x, In x (adata a) -> exists q, x = Fin q /\ round64 q = q /\ (Qcabs q <= ZQ (2 ^ 900))%Qc.

(** [r] is [e] up to the relative error 1/2^p and the absolute error 1/2^k *)
Definition close_to (p k : Z) (r e : Qc) : Prop := (Qcabs (r - e) <= / ZQ (2 ^ p) * Qcabs e + / ZQ (2 ^ k))%Qc.

(** value subtracted in an accumulation window starting at [t]: zero at step 0
    when forced or when there is no field for it *)
Definition start_value (values : fields) (force : bool) (t : Z) (i : nat) (y : Qc) : Prop :=
  (t = 0 /\ (force = true \/ ~ available values 0) /\ y = 0%Qc) \/
  (~ (t = 0 /\ (force = true \/ ~ available values 0)) /\ exists c, has_field values t c /\ cell c i y).
