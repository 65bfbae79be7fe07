(** * Spec_Scipy: what the tables built with a KD-tree are compared with *)
From Verif Require Import Base Num Scipy Spec_Interp.
From Coq Require Import Sorting.Sorted.
Local Open Scope Qc_scope.

(** source points are numbered 0 .. n-1; [dist p i] is the distance of the
    location [p] from source point [i] *)
(** [l]: the [k] points closest to [p], closest first *)
Definition closest {Loc} (dist : Loc -> nat -> Qc) (n k : nat) (p : Loc) (l : list nat) : Prop :=
  List.length l = k /\ NoDup l /\ (forall i, In i l -> (i < n)%nat) /\ StronglySorted (fun i j => dist p i <= dist p j) l /\
  (forall i j, In i l -> (j < n)%nat -> ~ In j l -> dist p i <= dist p j).
(** what the query of a KD-tree promises: the [k] closest points; absent points
    have infinite distance and index [n] *)
Definition kdtree {Loc} (dist : Loc -> nat -> Qc) (n : nat) (tree : nat -> Loc -> neighbours) : Prop :=
  forall k p, exists l, closest dist n (Nat.min k n) p l /\
    tree k p = List.app (map (fun i => (Fin (dist p i), Z.of_nat i)) l) (repeat (PInf, Z.of_nat n) (k - n)).
(** closest single point *)
Definition nearest_to {Loc} (dist : Loc -> nat -> Qc) (n : nat) (p : Loc) (i : nat) : Prop :=
  (i < n)%nat /\ forall j, (j < n)%nat -> dist p i <= dist p j.
(** weights proportional to 1 / d^2 that sum to one *)
Definition inverse_square (ds ws : list Qc) : Prop :=
  List.length ws = List.length ds /\ total ws = 1 /\ (forall w, In w ws -> 0 < w) /\
  exists c, Forall2 (fun d w => w * (d * d) = c) ds ws.
(** a KD-tree by exhaustive search: sorts the points by distance *)
Fixpoint insert_q (f : nat -> Qc) (i : nat) (l : list nat) : list nat :=
  match l with [] => [i] | j :: r => if Qc_ltb (f j) (f i) then j :: insert_q f i r else i :: l end.
Definition sort_q (f : nat -> Qc) (l : list nat) : list nat := fold_right (insert_q f) [] l.
Definition exhaustive {Loc} (dist : Loc -> nat -> Qc) (n : nat) (k : nat) (p : Loc) : neighbours :=
  List.app (map (fun i => (Fin (dist p i), Z.of_nat i)) (firstn k (sort_q (dist p) (seq 0 n)))) (repeat (PInf, Z.of_nat n) (k - n)).
