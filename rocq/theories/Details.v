(** * Details: model of [Pyg2pApi.parameter_details] (src/pyg2p/main/api.py:234-255)
    with the parameters configuration (src/pyg2p/main/config.py:184-207).

    [shown] is what an f-string shows of a JSON value: exact for texts, integers,
    booleans and None; [repr] stands for lists and objects. *)
From Verif Require Import Base PyStr Strings Config.
Local Open Scope string_scope.

Definition newline : string := String (ascii_of_nat 10) "".

(** f'{j}' *)
Definition shown (repr : json -> string) (j : json) : string :=
  match j with
  | JStr s => s
  | JNum z => str_of_Z z
  | JBool b => if b then "True" else "False"
  | JNull => "None"
  | JArr _ | JObj _ => repr j
  end.

(** config.py:186-196: the file written at the first start *)
Definition xyz : json :=
  JObj [("@description", JStr "var description"); ("@shortName", JStr "xyz"); ("@unit", JStr "xyz_unit_string");
        ("Conversion", JObj [("@function", JStr "x=x"); ("@id", JStr "xyz_conversion_id"); ("@unit", JStr "xyz_converted_unit")])].
Definition param_description : string := "Set here new parameters to extract. See example.".

(** config.py:95-129, 184-196: [Configuration().parameters] *)
Definition parameters (global : list (string * json)) (file : option jfile) : res conf :=
  merge_with_user_conf global param_description [("xyz", xyz)] file.

(** api.py:252-254: a line of the loop *)
Definition conversion_line (repr : json -> string) (c : json) : res string :=
  do i <- jitem c "@id"; do u <- jitem c "@unit"; do f <- jitem c "@function"; do n <- jitem c "@cutOffNegative";
  Ok ("Conversion id: " +++ shown repr i +++ " unit " +++ shown repr u +++ " " +++ shown repr f +++ " [cut negative: " +++ shown repr n +++ "]").
Fixpoint conversion_lines (repr : json -> string) (l : list json) (out : string) : res string :=
  match l with
  | [] => Ok out
  | c :: r => do s <- conversion_line repr c; conversion_lines repr r (out +++ newline +++ s)
  end.

(** [sep.join(l)] *)
Fixpoint joined (sep : string) (l : list string) : string :=
  match l with [] => "" | [s] => s | s :: r => s +++ sep +++ joined sep r end.

(** api.py:234-255 *)
Definition parameter_details (repr : json -> string) (global : list (string * json)) (file : option jfile)
    (short_name : option string) : res string :=
  do conf <- parameters global file;
  match short_name with
  | None | Some "" =>
      do j <- conf_load (c_file conf);
      match j with
      | JObj d => Ok ("Available parameters short names: " +++ newline +++ joined newline (map fst d))
      | _ => Raise AttributeError
      end
  | Some name =>
      do param <- param_get (c_vars conf) name;
      do s <- jitem param "@shortName"; do d <- jitem param "@description"; do u <- jitem param "@unit";
      let out := "Parameter " +++ shown repr s +++ ": " +++ shown repr d +++ " Unit: " +++ shown repr u in
      do c <- jitem param "Conversion";
      conversion_lines repr (match c with JArr l => l | _ => [c] end) out
  end.
