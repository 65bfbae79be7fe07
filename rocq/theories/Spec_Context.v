(** * Spec_Context: vocabulary of the properties of execution contexts (C30-C33). *)
From Verif Require Import Base PyStr Config Context.
Local Open Scope string_scope.

(** ** C30: the rules an execution must satisfy, in the documented order *)
Definition is_file (fs : fsys) (j : json) : bool := match j with JStr s => fs_file fs s | _ => false end.
Definition given (j : json) : bool := match j with JNull => false | JStr "" => false | _ => true end.
Definition documented_modes : list string :=
  ["grib_nearest"; "grib_invdist"; "nearest"; "invdist"; "adw"; "cdd"; "bilinear"; "triangulation"; "bilinear_delaunay"].
Definition all_digits (s : string) : bool := sforall is_digit s.
Definition rules (fs : fsys) (x : ctx) : list (Z * bool) :=
  [ (1001, given (x_input x));
    (1000, is_file fs (x_input x));
    (1300, is_file fs (x_lon x) && is_file fs (x_lat x));
    (1310, is_file fs (x_clone x));
    (8400, match x_mode x with JStr m => existsb (String.eqb m) documented_modes | _ => false end);
    (1400, match x_level x with JNull => true | JNum z => Z.leb 0 z | JStr s => all_digits s | _ => false end);
    (1500, match x_tstart x, x_tend x with JNum a, JNum b => Z.leb a b | _, _ => true end);
    (4100, negb (x_doCorr x) || (given (x_gem x) && given (x_dem x) && given (x_formula x)));
    (4200, negb (x_doCorr x) || is_file fs (x_dem x)) ]%bool%Z.
Fixpoint first_violated (l : list (Z * bool)) : option Z :=
  match l with
  | [] => None
  | (c, ok) :: r => if ok then first_violated r else Some c
  end.

(** ** C31: value of an option: command line, else command file, else default *)
(** a value of the command file: present and not null *)
Definition conf_value (conf : json) (key : string) : option json :=
  match conf with
  | JObj d => match dget String.eqb d key with Some JNull => None | o => o end
  | _ => None
  end.
Definition effective (line : option json) (conf : json) (key : string) (default : json) : json :=
  match line with
  | Some v => v
  | None => match conf_value conf key with Some v => v | None => default end
  end.
(** the same for integers: the command file may give them as text *)
Definition effective_int (line : option Z) (conf : json) (key : string) (r : json) : Prop :=
  match line with
  | Some z => r = JNum z
  | None => match conf_value conf key with
            | Some v => exists z, jint v = Ok z /\ r = JNum z
            | None => r = JNull
            end
  end.
Definition parameter_conf (cmd : json) : json :=
  match cmd with JObj d => match dget String.eqb d "Execution" with
    | Some (JObj ex) => match dget String.eqb ex "Parameter" with Some p => p | None => JNull end | _ => JNull end | _ => JNull end.
Definition outmaps_conf (cmd : json) : json :=
  match cmd with JObj d => match dget String.eqb d "Execution" with
    | Some (JObj ex) => match dget String.eqb ex "OutMaps" with Some p => p | None => JNull end | _ => JNull end | _ => JNull end.
Definition interpolation_conf (cmd : json) : json :=
  match outmaps_conf cmd with JObj d => match dget String.eqb d "Interpolation" with Some p => p | None => JNull end | _ => JNull end.
Definition aggregation_conf (cmd : json) : json :=
  match cmd with JObj d => match dget String.eqb d "Execution" with
    | Some (JObj ex) => match dget String.eqb ex "Aggregation" with Some p => p | None => JNull end | _ => JNull end | _ => JNull end.

(** the options that exist in both places *)
Definition overrides (a : cli) (cmd : json) (x : ctx) : Prop :=
  let js := option_map JStr in
  let out := outmaps_conf cmd in let par := parameter_conf cmd in let ic := interpolation_conf cmd in
  x_prefix x = effective (js (a_prefix a)) out "@namePrefix" (x_short x) /\
  x_scale x = effective (js (a_scale a)) out "@scaleFactor" (JNum 1) /\
  x_offset x = effective (js (a_offset a)) out "@offset" (JNum 0) /\
  x_vmin x = effective (js (a_vmin a)) out "@validMin" JNull /\
  x_vmax x = effective (js (a_vmax a)) out "@validMax" JNull /\
  x_vformat x = effective (js (a_vformat a)) out "@valueFormat" JNull /\
  x_units x = effective (js (a_units a)) out "@outputStepUnits" JNull /\
  x_fmap x = effective (option_map JNum (a_fmap a)) out "@fmap" (JNum 1) /\
  x_ext x = effective (option_map JNum (a_ext a)) out "@ext" (JNum 1) /\
  x_format x = effective (js (a_format a)) out "@format" (JStr "pcraster") /\
  effective_int (a_start a) par "@tstart" (x_tstart x) /\
  effective_int (a_end a) par "@tend" (x_tend x) /\
  effective_int (a_dataTime a) par "@dataTime" (x_dataTime x) /\
  effective_int (a_dataDate a) par "@dataDate" (x_dataDate x).

(** ** C32 *)
Definition short_variant (short s : string) : Prop := s = short \/ s = upper short \/ s = short +++ "var".
(** an optional criterion: absent, or equal to the key of the message *)
Definition opt_matches (criterion : json) (m : list (string * json)) (key : string) : Prop :=
  criterion = JNull \/ (dget String.eqb m key = Some criterion).
Definition in_window (start_ end_ a b : Z) : Prop :=
  if Z.eqb start_ end_ then (a = start_ /\ b = end_)%Z else (start_ <= a /\ b <= end_)%Z.

(** ** C33 *)
Definition false_spellings : list string := ["false"; "f"; "no"; "0"; "off"].
Definition means_false (s : string) : Prop := In (lower s) false_spellings.
