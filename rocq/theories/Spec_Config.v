(** * Spec_Config: vocabulary of the configuration properties (C22-C27, C66). *)
From Verif Require Import Base PyStr.
Local Open Scope string_scope.

(** ** properties files *)
(** the text before and after the first equals sign *)
Fixpoint cut_eq (s : string) : option (string * string) :=
  match s with
  | EmptyString => None
  | String c r => if Ascii.eqb c "=" then Some ("", r)
                  else match cut_eq r with Some (a, b) => Some (String c a, b) | None => None end
  end.
(** characters trimmed around a value: double quote, blank, tab *)
Definition trimmed (c : ascii) : bool := (Ascii.eqb c """" || Ascii.eqb c " " || Ascii.eqb c "009")%bool.
(** not blank and not a comment *)
Definition meaningful (line : string) : bool :=
  (negb (String.eqb (strip_ws line) "") && negb (starts_with "#" (strip_ws line)))%bool.
(** key and value defined by a line *)
Definition line_def (line : string) : option (string * string) :=
  if meaningful line then
    match cut_eq (strip_ws line) with
    | Some (k, v) => Some (strip_ws k, strip trimmed v)
    | None => None
    end
  else None.
(** value of the last line that defines [k] *)
Fixpoint last_def (lines : list string) (k : string) : option string :=
  match lines with
  | [] => None
  | l :: r => match last_def r k with
              | Some v => Some v
              | None => match line_def l with
                        | Some (k', v) => if String.eqb k k' then Some v else None
                        | None => None
                        end
              end
  end.
(** number of equals signs *)
Fixpoint count_eq (s : string) : nat :=
  match s with EmptyString => O | String c r => if Ascii.eqb c "=" then S (count_eq r) else count_eq r end.
(** a line without line ends *)
Definition one_line (s : string) : Prop := sforall (fun c => negb (Ascii.eqb c "010" || Ascii.eqb c "013"))%bool s = true.
Definition newline : string := String "010" "".

(** ** variables in paths: a template is a list of literal pieces and variables *)
Inductive piece := Lit (s : string) | Var (v : string).
Definition no_braces (s : string) : Prop := sforall (fun c => negb (Ascii.eqb c "{" || Ascii.eqb c "}"))%bool s = true.
Definition var_name (s : string) : Prop :=
  s <> "" /\ sforall (fun c => is_upper c || is_lower c || Ascii.eqb c "_")%bool s = true.
Definition piece_ok (p : piece) : Prop := match p with Lit s => no_braces s | Var v => var_name v end.
Definition template (ps : list piece) : string :=
  fold_right (fun p r => match p with Lit s => s +++ r | Var v => "{" +++ v +++ "}" +++ r end) "" ps.
Definition rendered (env : string -> string) (ps : list piece) : string :=
  fold_right (fun p r => match p with Lit s => s +++ r | Var v => env v +++ r end) "" ps.

(** no slash in a file name *)
Definition plain_name (s : string) : Prop := sforall (fun c => negb (Ascii.eqb c "/")) s = true.
