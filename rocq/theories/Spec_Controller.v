(** * Spec_Controller: vocabulary of the properties of executions (C28, C29,
    C34-C36). *)
From Verif Require Import Base Num PyStr Strings Config Context Aggregator Converter Reader Controller.
From Coq Require Import Permutation Sorted.
Local Open Scope string_scope.

(** ** C34 *)
(** the first and last step of an execution: those given to the aggregation or,
    without aggregation, those of the messages read *)
Definition used_range (s e : Z) (g : option aggr) : Z * Z :=
  match g with Some g => (a_start g, a_end g) | None => (s, e) end.
Definition requested_or (j : json) (grib : Z) : Z := match j with JNum z => z | _ => grib end.

(** ** C35 *)
Definition by_end (values : fields) : Prop := StronglySorted (fun a b => s_end (fst a) <= s_end (fst b))%Z values.
(** the fields, negative values cut off if asked for *)
Definition cut (x : ctx) (l : fields) : fields := if (x_doConv x && x_cutoff x)%bool then cut_off_fields l else l.
(** the fields of [l] with maps numbered from [i] on *)
Fixpoint numbered (i : Z) (l : fields) : list (Z * step * arr) :=
  match l with [] => [] | (k, v) :: r => (i, k, v) :: numbered (i + 1) r end.

(** ** C36 *)
Definition window (k : step) : Z * Z := (s_start k, s_end k).

(** ** C28 *)
(** the status the documentation gives to an outcome *)
Definition documented_status {A} (r : res A) : outcome :=
  match r with
  | Ok _ => Exit 0
  | Raise (AppExc c) => if (c =? 3000)%Z then Exit 0 else Exit 1
  | Raise e => Uncaught e
  end.
