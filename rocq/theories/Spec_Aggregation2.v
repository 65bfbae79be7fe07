(** * Specification vocabulary: accumulation with gaps *)
From Verif Require Import Base Num Aggregator Spec_Aggregation.
Local Open Scope Z_scope.

(** value of an accumulated series at [t]: 0 at the start of the forecast if
    there is no field for it, else as above *)
Definition accum_value (values : fields) (t : Z) (i : nat) (x : Qc) : Prop :=
  (t = 0 /\ ~ available values 0 /\ x = 0%Qc) \/ ((t <> 0 \/ available values 0) /\ series_value values t i x).

(** at every requested step without field there are more fields for later steps
    than requested steps without field before it *)
Definition enough_later (values : fields) (first end_ s : Z) : Prop :=
  forall t l, on_grid first end_ s t -> ~ available values t -> NoDup l ->
    (forall u, In u l -> on_grid (first - s) end_ s u /\ u < t /\ ~ available values u) ->
    exists later, NoDup later /\ (forall u, In u later -> available values u /\ t < u) /\
      (List.length l < List.length later)%nat.
