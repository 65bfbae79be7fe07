(** * Numexpr: arithmetic formulas evaluated in double precision.

    conversion.py:22 and correction.py:46-47 give formulas of the configuration
    to numexpr, which the other model files take as a parameter ([numexpr] of
    Converter.v). Here it is modelled for the texts written with numbers,
    names, + - * / and parentheses (all formulas shipped in parameters.json
    and shown in the README); functions, powers, comparisons and exponents are
    not, such texts denote nothing here. numexpr is external: this file is its
    documented behaviour on float64 arrays (single precision maps are widened
    first, which is exact). *)
From Verif Require Import Base Num PyStr Float64 Converter.
Local Open Scope Z_scope.

Inductive binop := Add | Sub | Mul | Div.
(** [ENum m d point]: the literal m / 10^d, with or without decimal point *)
Inductive expr :=
| EVar (name : string)
| ENum (m : Z) (d : nat) (point : bool)
| ENeg (a : expr)
| EBin (o : binop) (a b : expr).

Definition dec (m : Z) (d : nat) : Qc := (ZQ m / ZQ (10 ^ Z.of_nat d))%Qc.

(** ** tokens *)
Inductive tok := TNum (m : Z) (d : nat) (point : bool) | TName (s : string) | TSym (c : ascii).

Definition code (c : ascii) : Z := Z.of_nat (nat_of_ascii c).
Definition isdigit (c : ascii) : bool := (48 <=? code c) && (code c <=? 57).
Definition isletter (c : ascii) : bool :=
  ((97 <=? code c) && (code c <=? 122)) || ((65 <=? code c) && (code c <=? 90)) || (code c =? 95).

(** the digits at the beginning of [s]: number so far [m], how many, the rest *)
Fixpoint digits (m : Z) (n : nat) (s : string) : Z * nat * string :=
  match s with
  | String c s' => if isdigit c then digits (10 * m + (code c - 48)) (S n) s' else (m, n, s)
  | EmptyString => (m, n, s)
  end.
Fixpoint letters (s : string) : string * string :=
  match s with
  | String c s' => if isletter c || isdigit c then let (w, r) := letters s' in (String c w, r) else (EmptyString, s)
  | EmptyString => (EmptyString, s)
  end.

Fixpoint tokens (fuel : nat) (s : string) : option (list tok) :=
  match fuel with
  | O => None
  | S f =>
      match s with
      | EmptyString => Some []
      | String c s' =>
          if code c =? 32 then tokens f s'
          else if isdigit c then
            let '(m, _, r) := digits 0 0 s in
            match r with
            | String p r' =>
                if code p =? 46 then
                  let '(m', d, r'') := digits m 0 r' in option_map (cons (TNum m' d true)) (tokens f r'')
                else option_map (cons (TNum m 0 false)) (tokens f r)
            | EmptyString => Some [TNum m 0 false]
            end
          else if isletter c then let (w, r) := letters s in option_map (cons (TName w)) (tokens f r)
          else option_map (cons (TSym c)) (tokens f s')
      end
  end.

(** ** Python's grammar: sums of products of signed factors, from the left *)
Definition op_of (level : nat) (c : ascii) : option binop :=
  match level with
  | O => if code c =? 43 then Some Add else if code c =? 45 then Some Sub else None
  | _ => if code c =? 42 then Some Mul else if code c =? 47 then Some Div else None
  end.

Fixpoint parse (fuel : nat) (level : nat) (ts : list tok) : option (expr * list tok) :=
  match fuel with
  | O => None
  | S f =>
      match level with
      | 0%nat | 1%nat =>
          match parse f (S level) ts with
          | Some (e, r) => parse_more f level e r
          | None => None
          end
      | _ =>
          match ts with
          | TNum m d p :: r => Some (ENum m d p, r)
          | TName s :: r => Some (EVar s, r)
          | TSym c :: r =>
              if code c =? 45 then
                match parse f 2%nat r with Some (e, r') => Some (ENeg e, r') | None => None end
              else if code c =? 40 then
                match parse f 0%nat r with
                | Some (e, TSym c' :: r') => if code c' =? 41 then Some (e, r') else None
                | _ => None
                end
              else None
          | [] => None
          end
      end
  end
with parse_more (fuel : nat) (level : nat) (e : expr) (ts : list tok) : option (expr * list tok) :=
  match fuel with
  | O => None
  | S f =>
      match ts with
      | TSym c :: r =>
          match op_of level c with
          | Some o =>
              match parse f (S level) r with
              | Some (e', r') => parse_more f level (EBin o e e') r'
              | None => None
              end
          | None => Some (e, ts)
          end
      | _ => Some (e, ts)
      end
  end.

Definition parse_text (s : string) : option expr :=
  match tokens (S (String.length s)) s with
  | Some ts =>
      match parse (8 * List.length ts + 8) 0 ts with
      | Some (e, []) => Some e
      | _ => None
      end
  | None => None
  end.

(** ** evaluation, every operation rounded. A literal is the nearest double.
    numexpr multiplies by the rounded reciprocal instead of dividing by a
    literal with a decimal point. *)
Fixpoint double_literal (e : expr) : bool :=
  match e with
  | ENum _ _ p => p
  | ENeg a => double_literal a
  | _ => false
  end.

Fixpoint eval64 (env : string -> num) (e : expr) : num :=
  match e with
  | EVar s => env s
  | ENum m d _ => nround (Fin (dec m d))
  | ENeg a => nopp (eval64 env a)
  | EBin Add a b => fadd (eval64 env a) (eval64 env b)
  | EBin Sub a b => fsub (eval64 env a) (eval64 env b)
  | EBin Mul a b => fmul (eval64 env a) (eval64 env b)
  | EBin Div a b =>
      if double_literal b then fmul (eval64 env a) (fdiv (nint 1) (eval64 env b))
      else fdiv (eval64 env a) (eval64 env b)
  end.

(** names outside [l] are a KeyError of numexpr *)
Fixpoint only_names (l : list string) (e : expr) : bool :=
  match e with
  | EVar s => existsb (String.eqb s) l
  | ENum _ _ _ => true
  | ENeg a => only_names l a
  | EBin _ a b => only_names l a && only_names l b
  end.

(** formulas in x (conversion.py:22; the names [mv] and of the locals of the
    caller, which a formula could also use, are not modelled) *)
Definition ev64 : numexpr := fun s =>
  match parse_text s with
  | Some e => if only_names ["x"%string] e then Some (fun v => eval64 (fun _ => v) e) else None
  | None => None
  end.

(** formulas in p, dem and gem (correction.py:46) *)
Definition ev64_3 (s : string) : option (num -> num -> num -> num) :=
  match parse_text s with
  | Some e =>
      if only_names ["p"; "dem"; "gem"]%string e then
        Some (fun p dem gem => eval64 (fun n => if String.eqb n "p" then p else if String.eqb n "dem" then dem else gem) e)
      else None
  | None => None
  end.
(** formulas in z (correction.py:47) *)
Definition ev64_z (s : string) : option (num -> num) :=
  match parse_text s with
  | Some e => if only_names ["z"]%string e then Some (fun z => eval64 (fun _ => z) e) else None
  | None => None
  end.
