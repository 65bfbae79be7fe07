(** * PyStr: Python string operations used by pyg2p.

    Python [str] is modelled by Coq [string], i.e. by sequences of 8-bit
    characters (code points above 255 are not modelled; upper/lower act on
    ASCII letters only). None of these definitions is taken from pyg2p; each
    models the Python construct named in its comment. *)
From Verif Require Import Base.
From Coq Require Import DecimalString.
Local Open Scope string_scope.

Notation "a +++ b" := (String.append a b) (at level 60, right associativity).

Definition ch_in (c : ascii) (s : string) : bool :=
  existsb (Ascii.eqb c) (list_ascii_of_string s).
Definition code (c : ascii) : nat := nat_of_ascii c.
Definition is_digit (c : ascii) : bool := (Nat.leb 48 (code c) && Nat.leb (code c) 57)%bool.
Definition is_upper (c : ascii) : bool := (Nat.leb 65 (code c) && Nat.leb (code c) 90)%bool.
Definition is_lower (c : ascii) : bool := (Nat.leb 97 (code c) && Nat.leb (code c) 122)%bool.
(** whitespace removed by [str.strip()] (ASCII) *)
Definition is_space (c : ascii) : bool :=
  (Nat.eqb (code c) 32 || (Nat.leb 9 (code c) && Nat.leb (code c) 13)
   || (Nat.leb 28 (code c) && Nat.leb (code c) 31))%bool.

Definition lower_ch (c : ascii) : ascii := if is_upper c then ascii_of_nat (code c + 32) else c.
Definition upper_ch (c : ascii) : ascii := if is_lower c then ascii_of_nat (code c - 32) else c.

Fixpoint smap (f : ascii -> ascii) (s : string) : string :=
  match s with EmptyString => EmptyString | String c s' => String (f c) (smap f s') end.
(** [s.lower()], [s.upper()] *)
Definition lower (s : string) : string := smap lower_ch s.
Definition upper (s : string) : string := smap upper_ch s.

Fixpoint sforall (p : ascii -> bool) (s : string) : bool :=
  match s with EmptyString => true | String c s' => p c && sforall p s' end.
Fixpoint sexists (p : ascii -> bool) (s : string) : bool :=
  match s with EmptyString => false | String c s' => p c || sexists p s' end.
(** keep the characters satisfying [p]: [''.join(c for c in s if p(c))] *)
Fixpoint sfilter (p : ascii -> bool) (s : string) : string :=
  match s with
  | EmptyString => EmptyString
  | String c s' => if p c then String c (sfilter p s') else sfilter p s'
  end.

(** [s.lstrip(chars)], [s.rstrip(chars)], [s.strip(chars)] for the set [p] *)
Fixpoint lstrip (p : ascii -> bool) (s : string) : string :=
  match s with
  | EmptyString => EmptyString
  | String c s' => if p c then lstrip p s' else s
  end.
Fixpoint rstrip (p : ascii -> bool) (s : string) : string :=
  match s with
  | EmptyString => EmptyString
  | String c s' => if sforall p s then EmptyString else String c (rstrip p s')
  end.
Definition strip (p : ascii -> bool) (s : string) : string := rstrip p (lstrip p s).
(** [s.strip()] *)
Definition strip_ws (s : string) : string := strip is_space s.

(** [s.startswith(p)] *)
Fixpoint starts_with (p s : string) : bool :=
  match p, s with
  | EmptyString, _ => true
  | String a p', String b s' => Ascii.eqb a b && starts_with p' s'
  | _, _ => false
  end.
(** [p in s] *)
Fixpoint contains (p s : string) : bool :=
  (starts_with p s || match s with EmptyString => false | String _ s' => contains p s' end)%bool.

(** [s.replace(old, new)], [old] non empty: left to right, non overlapping *)
Fixpoint replace_go (old new : string) (skip : nat) (s : string) : string :=
  match s with
  | EmptyString => EmptyString
  | String c s' =>
      match skip with
      | S k => replace_go old new k s'
      | O => if starts_with old s
             then new +++ replace_go old new (String.length old - 1) s'
             else String c (replace_go old new O s')
      end
  end.
Definition replace (old new s : string) : string := replace_go old new O s.

(** [re.split] on a one-character class *)
Fixpoint split_go (p : ascii -> bool) (s : string) : string * list string :=
  match s with
  | EmptyString => (EmptyString, [])
  | String c s' =>
      let '(w, ws) := split_go p s' in
      if p c then (EmptyString, w :: ws) else (String c w, ws)
  end.
Definition split_on (p : ascii -> bool) (s : string) : list string :=
  let '(w, ws) := split_go p s in w :: ws.

Definition rev_string (s : string) : string :=
  string_of_list_ascii (List.rev (list_ascii_of_string s)).

(** [str(n)] *)
Definition str_of_Z (z : Z) : string := NilZero.string_of_int (Z.to_int z).
(** [int(s)] for plain decimal literals *)
Definition Z_of_str (s : string) : option Z := option_map Z.of_int (NilZero.int_of_string s).
(** [s.isdigit()] *)
Definition isdigit (s : string) : bool :=
  match s with EmptyString => false | _ => sforall is_digit s end.

(** ['0' * n] for a Python int [n] *)
Fixpoint srepeat (c : ascii) (n : nat) : string :=
  match n with O => EmptyString | S k => String c (srepeat c k) end.

(** [s[:n]] and [s[n:]] for [n >= 0] *)
Fixpoint stake (n : nat) (s : string) : string :=
  match n, s with
  | S k, String c s' => String c (stake k s')
  | _, _ => EmptyString
  end.
Fixpoint sdrop (n : nat) (s : string) : string :=
  match n, s with
  | S k, String _ s' => sdrop k s'
  | O, s => s
  | _, EmptyString => EmptyString
  end.

(** [sep.join(l)] *)
Fixpoint join (sep : string) (l : list string) : string :=
  match l with
  | [] => ""
  | [x] => x
  | x :: l' => x +++ sep +++ join sep l'
  end.

(** [a < b], [a <= b] on strings: lexicographic by code *)
Fixpoint str_leb (a b : string) : bool :=
  match a, b with
  | EmptyString, _ => true
  | String _ _, EmptyString => false
  | String x a', String y b' =>
      if Nat.ltb (code x) (code y) then true
      else if Nat.ltb (code y) (code x) then false else str_leb a' b'
  end.

(** [sorted(l, key)] for string keys (stable insertion sort) *)
Section SortStr.
  Context {A : Type} (key : A -> string).
  Fixpoint insert_str (x : A) (l : list A) : list A :=
    match l with
    | [] => [x]
    | y :: l' => if str_leb (key x) (key y) then x :: l else y :: insert_str x l'
    end.
  Fixpoint sort_str (l : list A) : list A :=
    match l with [] => [] | x :: l' => insert_str x (sort_str l') end.
End SortStr.
