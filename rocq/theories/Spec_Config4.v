(** * Specification: what a properties file gives to each key *)
From Verif Require Import Base PyStr Spec_Config.
From Coq Require Import String Ascii List.
Import ListNotations.
Local Open Scope string_scope.

(** the text up to the first equals sign, or the whole text *)
Definition before_eq (s : string) : string := match cut_eq s with Some (a, _) => a | None => s end.
(** key and value a line gives: the value ends at the second equals sign *)
Definition line_gives (line : string) : option (string * string) :=
  if meaningful line then
    match cut_eq (strip_ws line) with
    | Some (k, v) => Some (strip_ws k, strip trimmed (before_eq v))
    | None => None
    end
  else None.
(** what the last line that defines [k] gives it *)
Definition last_given (lines : list string) (k : string) : option string :=
  fold_left (fun acc l => match line_gives l with Some (k', v) => if String.eqb k k' then Some v else acc | None => acc end) lines None.

