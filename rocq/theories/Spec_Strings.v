(** * Spec_Strings: vocabulary for the string-level properties (C61-C63). *)
From Verif Require Import Base PyStr.
Local Open Scope string_scope.

(** the value given by the last call that sets option [o], if any *)
Fixpoint last_setting (calls : list (string * string)) (o : string) : option string :=
  match calls with
  | [] => None
  | (o', v) :: rest =>
      match last_setting rest o with
      | Some w => Some w
      | None => if String.eqb o o' then Some v else None
      end
  end.

(** a token that needs no quoting: non empty, no blank and no double quote *)
Definition word_char (c : ascii) : bool := (negb (is_space c) && negb (Ascii.eqb c """"))%bool.
Definition word (s : string) : Prop := s <> "" /\ sforall word_char s = true.

(** [b] comes right after [a] in the argument vector *)
Definition followed_by (argv : list string) (a b : string) : Prop :=
  exists p q, argv = (p ++ a :: b :: q)%list.

(** the tokens of a list of (option, value) pairs; a flag has an empty value *)
Definition tokens (l : list (string * string)) : list string :=
  flat_map (fun ov => if String.eqb (snd ov) "" then [fst ov] else [fst ov; snd ov]) l.
