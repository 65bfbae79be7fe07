(** * Spec_Writers: vocabulary of properties C37-C40, independent of the code
    of the writers. *)
From Verif Require Import Base PyStr Num.
Local Open Scope Qc_scope.

(** length in seconds of the GRIB step units up to one day *)
Definition unit_seconds (u : string) : option Qc :=
  dget String.eqb [("s", ZQ 1); ("m", ZQ 60); ("h", ZQ 3600); ("3h", ZQ 10800); ("6h", ZQ 21600);
                   ("12h", ZQ 43200); ("D", ZQ 86400)]%string u.
(** the same for the names used in the NetCDF [units] attribute *)
Definition name_seconds (u : string) : option Qc :=
  dget String.eqb [("seconds", ZQ 1); ("minutes", ZQ 60); ("hours", ZQ 3600); ("3h steps", ZQ 10800);
                   ("6h steps", ZQ 21600); ("12h steps", ZQ 43200); ("days", ZQ 86400)]%string u.

(** [q] is a whole number *)
Definition integral (q : Qc) : Prop := exists z, q = ZQ z.

(** a cell of the clone map is missing: equal to the missing value, up to the
    tolerance that numpy's masked_values uses for floating point maps *)
Definition clone_missing (isfloat : bool) (x mv : num) : bool :=
  match x, mv with
  | Fin a, Fin b =>
      if isfloat then
        let d := if Qc_ltb a b then b - a else a - b in
        let m := if Qc_ltb b 0 then - b else b in
        Qc_leb d (Q2Qc (1 # 100000000) + m * Q2Qc (1 # 100000))
      else Qc_eqb a b
  | PInf, PInf | MInf, MInf => true
  | _, _ => false
  end.

(** a cell of a field is missing *)
Definition field_missing (a : arr) (i : nat) (x : num) : bool := (is_nan x || masked_at a i)%bool.
