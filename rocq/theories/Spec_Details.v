(** * Vocabulary of C91: what parameter_details is to show. *)
From Verif Require Import Base PyStr Strings Config.
Local Open Scope string_scope.

(** the entry in force: that of the user, or else the global one *)
Definition in_force (global user : list (string * json)) (name : string) : option json :=
  match dget String.eqb user name with Some p => Some p | None => dget String.eqb global name end.
(** [field j k v]: the object [j] has the value [v] at the key [k] *)
Definition field (j : json) (k : string) (v : json) : Prop := exists d, j = JObj d /\ dget String.eqb d k = Some v.

(** how a value is printed *)
Definition printed (repr : json -> string) (j : json) (s : string) : Prop :=
  match j with
  | JStr t => s = t
  | JNum z => s = str_of_Z z
  | JBool true => s = "True" | JBool false => s = "False"
  | JNull => s = "None"
  | _ => s = repr j
  end.
Definition shows (repr : json -> string) (j : json) (k s : string) : Prop := exists v, field j k v /\ printed repr v s.

(** the line of a conversion and the first line *)
Definition describes (repr : json -> string) (c : json) (line : string) : Prop :=
  exists i u f n, shows repr c "@id" i /\ shows repr c "@unit" u /\ shows repr c "@function" f /\ shows repr c "@cutOffNegative" n /\
    line = "Conversion id: " +++ i +++ " unit " +++ u +++ " " +++ f +++ " [cut negative: " +++ n +++ "]".
Definition headline (repr : json -> string) (p : json) (line : string) : Prop :=
  exists s d u, shows repr p "@shortName" s /\ shows repr p "@description" d /\ shows repr p "@unit" u /\
    line = "Parameter " +++ s +++ ": " +++ d +++ " Unit: " +++ u.
(** the conversions of a parameter: one object or a list of them *)
Definition conversions (p : json) (l : list json) : Prop :=
  field p "Conversion" (JArr l) \/ exists c, field p "Conversion" c /\ l = [c] /\ forall l', c <> JArr l'.
Fixpoint text_of_lines (l : list string) : string :=
  match l with [] => "" | [s] => s | s :: r => s +++ String (ascii_of_nat 10) (text_of_lines r) end.

(** the three items that every parameter of the manual has *)
Definition is_parameter (p : json) : Prop :=
  (exists s, field p "@shortName" (JStr s)) /\ (exists d, field p "@description" (JStr d)) /\ (exists u, field p "@unit" (JStr u)).
