(** * Spec_Reader: vocabulary of the properties of the GRIB reader (C57-C60). *)
From Verif Require Import Base Num PyStr Config Context Aggregator Reader.
From Coq Require Import Permutation Sorted.
Local Open Scope string_scope.

(** ** C57 *)
(** What a message says: its steps, its number of points along a meridian, its
    level, and its field, masked exactly where the bitmap (if any) is 0. *)
Record reading := mkReading
  { rd_start : Z; rd_end : Z; rd_nj : Z; rd_level : Z; rd_field : arr }.
Definition has_int (m : gmsg) (k : string) (z : Z) : Prop := dget String.eqb (gm_keys m) k = Some (JNum z).
Definition reads (m : gmsg) (x : reading) : Prop :=
  has_int m "startStep" (rd_start x) /\ has_int m "endStep" (rd_end x) /\
  has_int m "Nj" (rd_nj x) /\ has_int m "level" (rd_level x) /\
  adata (rd_field x) = gm_values m /\
  exists b, has_int m "bitmapPresent" b /\
    (b <> 0%Z -> List.length (gm_bitmap m) = List.length (gm_values m)) /\
    forall i, masked_at (rd_field x) i = (negb (b =? 0)%Z && (nth i (gm_bitmap m) 1%Z =? 0)%Z)%bool.

(** Fields with their step keys, in the order of the messages. The temporal
    resolution in the key is the second one from the message whose steps are
    [change] on. *)
Definition is_change (change : string) (x : reading) : bool :=
  String.eqb (str_of_Z (rd_start x) +++ "-" +++ str_of_Z (rd_end x)) change.
Fixpoint entries (step step2 : Z) (change : string) (before : list reading) (xs : list reading) : list (Aggregator.step * arr) :=
  match xs with
  | [] => []
  | x :: r =>
      let upto := (before ++ [x])%list in
      (mkStep (rd_start x) (rd_end x) (rd_nj x) (if existsb (is_change change) upto then step2 else step) (rd_level x),
       rd_field x) :: entries step step2 change upto r
  end.

(** the last field with a given key *)
Definition last_of {K V} (k : K) (v : V) (l : list (K * V)) : Prop :=
  exists l1 l2, l = (l1 ++ (k, v) :: l2)%list /\ ~ In k (map fst l2).
(** a dictionary holds, per key, exactly the last of the given fields *)
Definition holds {K V} (d l : list (K * V)) : Prop :=
  NoDup (map fst d) /\ forall k v, In (k, v) d <-> last_of k v l.

(** messages a selection accepts *)
Definition accepted (sel : selection) (m : gmsg) : bool :=
  match find (gm_keys m) sel with Ok b => b | Raise _ => false end.

(** The messages that select_messages works on: those accepted by the selection
    or, if none is, by the selection with the start step relaxed. *)
Definition effective_sel (sel : selection) (file : list gmsg) (sel' : selection) : Prop :=
  (sel' = sel /\ (existsb (accepted sel) file = true \/ retry_sel sel = None)) \/
  (existsb (accepted sel) file = false /\ retry_sel sel = Some sel').

(** no open handle is wrong *)
Definition good_world (w : world) : Prop :=
  NoDup (map fst (w_live w)) /\ Forall (fun gm => (fst gm < w_next w)%Z) (w_live w).

(** ** C58 *)
Definition is_min (z : Z) (l : list Z) : Prop := In z l /\ Forall (fun x => z <= x)%Z l.
Definition is_max (z : Z) (l : list Z) : Prop := In z l /\ Forall (fun x => x <= z)%Z l.
(** [es] lists the end steps of the messages in increasing order, each once *)
Definition end_steps (pairs : list (Z * Z)) (es : list Z) : Prop :=
  StronglySorted Z.lt es /\ forall z, In z es <-> In z (map snd pairs).
(** the spacing is [d] from position [i] to position [j] *)
Definition spaced (es : list Z) (i j : nat) (d : Z) : Prop :=
  forall n, (i <= n < j)%nat -> (nth (S n) es 0 - nth n es 0 = d)%Z.

(** ** C60 *)
(** the Gregorian calendar *)
Definition leap_year (y : Z) : Prop := ((4 | y) /\ (~ (100 | y) \/ (400 | y)))%Z.
Definition month_days (y m n : Z) : Prop :=
  ((m = 1 /\ n = 31) \/ (m = 2 /\ (leap_year y /\ n = 29 \/ ~ leap_year y /\ n = 28)) \/ (m = 3 /\ n = 31) \/
   (m = 4 /\ n = 30) \/ (m = 5 /\ n = 31) \/ (m = 6 /\ n = 30) \/ (m = 7 /\ n = 31) \/ (m = 8 /\ n = 31) \/
   (m = 9 /\ n = 30) \/ (m = 10 /\ n = 31) \/ (m = 11 /\ n = 30) \/ (m = 12 /\ n = 31))%Z.
Definition valid_day (y m d : Z) : Prop :=
  (1000 <= y <= 9999 /\ 1 <= d /\ exists n, month_days y m n /\ d <= n)%Z.
