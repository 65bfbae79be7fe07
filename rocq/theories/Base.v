(** * Base: Python-level vocabulary shared by every model file.

    None of these definitions is taken from pyg2p itself; each one models the
    Python / standard-library construct named in its comment, exactly in the
    way the cited pyg2p lines use it. *)
From Coq Require Export List ZArith Bool Lia String Ascii.
Export ListNotations.
Local Open Scope Z_scope.

(** ** Exceptions as values *)

(** Python exceptions that the modelled code can raise.
    [AppExc c] is [ApplicationException] with [code = c]
    (src/pyg2p/exceptions.py:27-82). *)
Inductive exn : Type :=
| AppExc (code : Z)
| KeyError
| IndexError
| TypeError
| ValueError
| AttributeError
| ZeroDivisionError
| FileNotFoundError
| OtherError.

(** Result of a computation that may raise. *)
Inductive res (A : Type) : Type :=
| Ok (a : A)
| Raise (e : exn).
Arguments Ok {A} a.
Arguments Raise {A} e.

Definition rbind {A B} (x : res A) (f : A -> res B) : res B :=
  match x with Ok a => f a | Raise e => Raise e end.

Notation "'do' x <- e ; f" := (rbind e (fun x => f))
  (at level 200, x name, e at level 100, f at level 200, right associativity).
Notation "'do' ' p <- e ; f" := (rbind e (fun p => f))
  (at level 200, p pattern, e at level 100, f at level 200, right associativity).

Definition is_ok {A} (x : res A) : bool :=
  match x with Ok _ => true | Raise _ => false end.

(** [for x in l: s = f s x], stopping at the first exception. *)
Fixpoint foldM {S X} (f : S -> X -> res S) (l : list X) (s : S) : res S :=
  match l with
  | [] => Ok s
  | x :: l' => do s' <- f s x; foldM f l' s'
  end.

(** [[f(x) for x in l]] where [f] may raise. *)
Fixpoint mapM {X Y} (f : X -> res Y) (l : list X) : res (list Y) :=
  match l with
  | [] => Ok []
  | x :: l' => do y <- f x; do ys <- mapM f l'; Ok (y :: ys)
  end.

(** ** Integers *)

(** Number of elements of [range(a, b, s)] for [s > 0]. *)
Definition range_len (a b s : Z) : nat := Z.to_nat ((b - a + s - 1) / s).

(** Python [range(a, b, s)]; a zero step raises ValueError. *)
Definition py_range (a b s : Z) : res (list Z) :=
  if s =? 0 then Raise ValueError
  else if 0 <? s then Ok (map (fun i => a + Z.of_nat i * s) (seq 0 (range_len a b s)))
  else Ok (map (fun i => a + Z.of_nat i * s) (seq 0 (range_len b a (- s)))).

(** ** Sequences *)

(** Python [l[i]] with negative indices counting from the end. *)
Definition py_index {A} (l : list A) (i : Z) : res A :=
  let n := Z.of_nat (List.length l) in
  let j := if i <? 0 then i + n else i in
  if j <? 0 then Raise IndexError
  else match nth_error l (Z.to_nat j) with
       | Some a => Ok a
       | None => Raise IndexError
       end.

(** [x in l] for a list of integers. *)
Definition zmem (x : Z) (l : list Z) : bool := existsb (Z.eqb x) l.

(** [bisect.bisect_left(a, x)]: the binary search of the Python standard
    library, run with explicit fuel (the length of the list always suffices,
    see Base_P). Works, like the original, on unsorted lists too. *)
Fixpoint bisect_left_loop (fuel : nat) (a : list Z) (x : Z) (lo hi : nat) : nat :=
  match fuel with
  | O => lo
  | S f =>
      if (lo <? hi)%nat then
        let mid := Nat.div2 (lo + hi) in
        if nth mid a 0 <? x then bisect_left_loop f a x (S mid) hi
        else bisect_left_loop f a x lo mid
      else lo
  end.
Definition bisect_left (a : list Z) (x : Z) : nat :=
  bisect_left_loop (List.length a) a x 0 (List.length a).

(** [bisect.bisect_right(a, x)]. *)
Fixpoint bisect_right_loop (fuel : nat) (a : list Z) (x : Z) (lo hi : nat) : nat :=
  match fuel with
  | O => lo
  | S f =>
      if (lo <? hi)%nat then
        let mid := Nat.div2 (lo + hi) in
        if x <? nth mid a 0 then bisect_right_loop f a x lo mid
        else bisect_right_loop f a x (S mid) hi
      else lo
  end.
Definition bisect_right (a : list Z) (x : Z) : nat :=
  bisect_right_loop (List.length a) a x 0 (List.length a).

(** Stable sort by an integer key ([sorted(l, key=f)]): insertion sort. *)
Section SortBy.
  Context {A : Type} (key : A -> Z).
  Fixpoint insert_by (x : A) (l : list A) : list A :=
    match l with
    | [] => [x]
    | y :: l' => if key x <=? key y then x :: l else y :: insert_by x l'
    end.
  Fixpoint sort_by (l : list A) : list A :=
    match l with
    | [] => []
    | x :: l' => insert_by x (sort_by l')
    end.
End SortBy.

(** ** Dictionaries: insertion-ordered association lists with unique keys *)
Section Dict.
  Context {K V : Type} (eqb : K -> K -> bool).

  (** [d.get(k)] *)
  Fixpoint dget (d : list (K * V)) (k : K) : option V :=
    match d with
    | [] => None
    | (k', v) :: d' => if eqb k k' then Some v else dget d' k
    end.

  (** [k in d] *)
  Definition dmem (d : list (K * V)) (k : K) : bool :=
    match dget d k with Some _ => true | None => false end.

  (** [d[k]] *)
  Definition dgetx (d : list (K * V)) (k : K) : res V :=
    match dget d k with Some v => Ok v | None => Raise KeyError end.

  (** [d[k] = v]: an existing key keeps its place, a new one goes last. *)
  Fixpoint dset (d : list (K * V)) (k : K) (v : V) : list (K * V) :=
    match d with
    | [] => [(k, v)]
    | (k', v') :: d' => if eqb k k' then (k', v) :: d' else (k', v') :: dset d' k v
    end.

  (** [del d[k]] (no effect when absent). *)
  Fixpoint ddel (d : list (K * V)) (k : K) : list (K * V) :=
    match d with
    | [] => []
    | (k', v') :: d' => if eqb k k' then d' else (k', v') :: ddel d' k
    end.

  (** [d.update(e)] *)
  Definition dupdate (d e : list (K * V)) : list (K * V) :=
    fold_left (fun acc kv => dset acc (fst kv) (snd kv)) e d.

  (** [dict(pairs)] *)
  Definition dict_of (ps : list (K * V)) : list (K * V) := dupdate [] ps.
End Dict.

Definition dkeys {K V} (d : list (K * V)) : list K := map fst d.
Definition dvals {K V} (d : list (K * V)) : list V := map snd d.
