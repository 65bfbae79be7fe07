(** * Spec_Store: vocabulary of the properties about files kept between runs
    (C24, C86-C89). Independent of the model except for its data types. *)
From Verif Require Import Base PyStr Config Json Store.
From Coq Require Import Permutation.
Local Open Scope string_scope.

(** JSON values that are equal up to the order of the keys of their objects *)
Inductive jsame : json -> json -> Prop :=
| same_null : jsame JNull JNull
| same_bool b : jsame (JBool b) (JBool b)
| same_num z : jsame (JNum z) (JNum z)
| same_str s : jsame (JStr s) (JStr s)
| same_arr l l' : Forall2 jsame l l' -> jsame (JArr l) (JArr l')
| same_obj d d' d'' : Forall2 (fun a b => fst a = fst b /\ jsame (snd a) (snd b)) d d' -> Permutation d' d'' ->
    jsame (JObj d) (JObj d'').
Definition osame (a b : option json) : Prop :=
  match a, b with
  | Some x, Some y => exists z, jsame x z /\ jsame y z
  | None, None => True
  | _, _ => False
  end.

(** a JSON value as Python holds it: the keys of each object are distinct *)
Inductive distinct_keys : json -> Prop :=
| dk_null : distinct_keys JNull
| dk_bool b : distinct_keys (JBool b)
| dk_num z : distinct_keys (JNum z)
| dk_str s : distinct_keys (JStr s)
| dk_arr l : Forall distinct_keys l -> distinct_keys (JArr l)
| dk_obj d : NoDup (map fst d) -> Forall (fun kv => distinct_keys (snd kv)) d -> distinct_keys (JObj d).

(** the value of a key after some changes *)
Fixpoint last_value (old : option json) (cs : list change) (k : string) : option json :=
  match cs with
  | [] => old
  | Put k' v :: cs' => last_value (if String.eqb k' k then Some v else old) cs' k
  | Del k' :: cs' => last_value (if String.eqb k' k then None else old) cs' k
  end.

(** the description entry, with which every file is created, is left alone *)
Definition ordinary (c : change) : Prop :=
  match c with
  | Put k v => k <> "description" /\ distinct_keys v
  | Del k => k <> "description"
  end.
Definition usual_init (d : list (string * json)) : Prop :=
  distinct_keys (JObj d) /\ dget String.eqb d "description" <> None.

(** the text holds these entries *)
Definition holds (text : string) (value : string -> option json) : Prop :=
  exists d, loads text = Some (JObj d) /\ forall k, osame (dget String.eqb d k) (value k).

(** ** schedules of whole updates: a process starts, or changes an entry and
    dumps, without being interrupted by another one *)
Inductive whole := Starts (p : nat) | Updates (p : nat) (c : change).
Definition steps_of (w : whole) : list (nat * act) :=
  match w with
  | Starts p => [(p, Begin)]
  | Updates p c => [(p, Do c); (p, OpenW); (p, WriteW)]
  end.
Definition whole_schedule (ws : list whole) : list (nat * act) := List.concat (map steps_of ws).
Fixpoint updates (ws : list whole) : list change :=
  match ws with [] => [] | Starts _ :: r => updates r | Updates _ c :: r => c :: updates r end.
Fixpoint updates_of (p : nat) (ws : list whole) : list change :=
  match ws with
  | [] => []
  | Starts _ :: r => updates_of p r
  | Updates q c :: r => if Nat.eqb q p then c :: updates_of p r else updates_of p r
  end.
Fixpoint starters (ws : list whole) : list nat :=
  match ws with [] => [] | Starts p :: r => p :: starters r | Updates _ _ :: r => starters r end.

(** ** downloads *)
Definition wanted (r : remote) (f : string) : Prop := In f (r_names r) /\ ~ In f ["."; ".."; "readme.txt"].
Definition prefix_of (a b : string) : Prop := exists t, b = a +++ t.
