(** * Spec_Series: vocabulary of C94 and C95 (from the messages of a file to
    accumulated and averaged maps). *)
From Verif Require Import Base Num PyStr Strings Config Context Spec_Context Aggregator Converter Reader Spec_Reader Controller Spec_Controller Spec_Flow Spec_Aggregation Spec_Convert.
Local Open Scope string_scope.

(** one input file, an aggregation of type [t] over [a] hours with time unit [u] *)
Definition aggregated_request (x : ctx) (t : string) (a u : Z) : Prop :=
  jtruthy (x_input2 x) = false /\ x_doAggr x = true /\ x_atype x = JStr t /\ jint (x_astep x) = Ok a /\ jint (x_unitTime x) = Ok u /\ (0 < a)%Z.
(** the conversion that is asked for, as a function on values; none: identity *)
Definition converts (o : ext) (x : ctx) (h : num -> num) : Prop :=
  x_doConv x = false /\ (forall v, h v = v) \/
  x_doConv x = true /\ exists e, x_convFun x = JStr ("x=" +++ e) /\ contains "x=" e = false /\ e <> "x" /\ xt_numexpr o e = Some h.
(** amounts since the start of the forecast: all messages of the variable begin at step 0 *)
Definition since_start (nm : string) (f : gfile) : Prop :=
  Forall (fun m => forall t, dget String.eqb (gm_keys m) "shortName" = Some (JStr t) -> short_variant nm t ->
    has_int m "startStep" 0 /\ exists b, has_int m "endStep" b /\ (0 <= b)%Z) (gf_msgs f).

(** on one grid, one message for each end step *)
Definition uniform (ms : list gmsg) (size : nat) : Prop :=
  (exists n, Forall (fun m => has_int m "Nj" n) ms) /\
  (exists es, Forall2 (fun m t => has_int m "endStep" t) ms es /\ NoDup es) /\
  Forall (fun m => List.length (gm_values m) = size) ms.
(** value [v] of cell [j] of the message of end step [t], not one of the missing
    values of the messages; [q]: converted *)
Definition datum (h : num -> num) (ms : list gmsg) (t : Z) (j : nat) (q : Qc) : Prop :=
  exists m v, In m ms /\ has_int m "endStep" t /\ nth_error (gm_values m) j = Some v /\ h v = Fin q /\
    forall m' mv, In m' ms -> dget String.eqb (gm_dbl m') "missingValue" = Some mv -> ~ is_missing mv v.
Definition message_at (ms : list gmsg) (t : Z) : Prop := exists m, In m ms /\ has_int m "endStep" t.

(** the value [q], set to 0 if it is negative and this is asked for *)
Definition cut_value (x : ctx) (q : Qc) : Qc := if (x_doConv x && x_cutoff x && nltb (Fin q) (Fin 0%Qc))%bool then 0%Qc else q.

(** the first message that ends at or after step [t] ends at [u] *)
Definition next_message (ms : list gmsg) (t u : Z) : Prop := message_at ms u /\ (t <= u)%Z /\ forall w, message_at ms w -> (t <= w)%Z -> (u <= w)%Z.

(** amount [p] of cell [j] at the begin [t] of a window: 0 at step 0 if this is
    asked for or the file has no message there, otherwise that of the message *)
Definition begin_amount (force : bool) (h : num -> num) (ms : list gmsg) (t : Z) (j : nat) (p : Qc) : Prop :=
  t = 0%Z /\ (force = true \/ ~ message_at ms 0) /\ p = 0%Qc \/ ~ (t = 0%Z /\ force = true) /\ datum h ms t j p.
