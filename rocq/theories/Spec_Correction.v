(** * Spec_Correction: vocabulary of the properties of the geopotential of a
    correction (C100-C102). *)
From Verif Require Import Base Num PyStr Config Context Aggregator Reader Spec_Reader Correction.
Local Open Scope string_scope.

(** a geopotential message, by its short name *)
Definition named (n : string) (m : gmsg) : bool :=
  match dget String.eqb (gm_keys m) "shortName" with Some (JStr s) => String.eqb s n | _ => false end.
Definition geopotential (m : gmsg) : bool := existsb (fun n => named n m) ["fis"; "z"; "FIS"; "orog"].

(** the geopotential messages of a file in the order they are read: name by
    name through an index, as they stand in the file without *)
Definition geo_messages (f : gfile) : list gmsg :=
  if gf_indexable f then flat_map (fun n => filter (named n) (gf_msgs f)) ["fis"; "z"; "FIS"; "orog"]
  else filter geopotential (gf_msgs f).

(** the messages before the first on another number of parallels *)
Fixpoint before_change (nj : Z) (xs : list reading) : list reading :=
  match xs with
  | [] => []
  | x :: r => if (rd_nj x =? nj)%Z then x :: before_change nj r else []
  end.
Definition first_grid (xs : list reading) : list reading :=
  match xs with [] => [] | x :: _ => before_change (rd_nj x) xs end.

(** the same steps and level *)
Definition same_slot (x y : reading) : Prop :=
  rd_start x = rd_start y /\ rd_end x = rd_end y /\ rd_nj x = rd_nj y /\ rd_level x = rd_level y.
(** [y] is the first with the smallest end step; [x] is the last with the steps
    and level of [y] *)
Definition chosen (xs : list reading) (x : reading) : Prop :=
  exists y a b c d, xs = (a ++ y :: b)%list /\ Forall (fun z => rd_end y < rd_end z)%Z a /\ Forall (fun z => rd_end y <= rd_end z)%Z b /\
    xs = (c ++ x :: d)%list /\ same_slot x y /\ Forall (fun z => ~ same_slot z y) d.

(** indexes and file handlers open *)
Definition held (w : world) : nat := (w_index w + w_files w)%nat.

(** a request comes to opening the geopotential file: it has a path, the DEM
    can be read and the file is there *)
Definition reaches_file (files : string -> option gfile) (q : corr_ask) : bool :=
  match ca_geo q, ca_dem_read q with
  | Ok p, Ok _ => match files p with Some _ => true | None => false end
  | _, _ => false
  end.
Definition failed {A} (x : res A) : bool := match x with Ok _ => false | Raise _ => true end.
Fixpoint failures (h : list ((string -> option gfile) * corr_ask)) (xs : list (res corr_inst)) : nat :=
  match h, xs with
  | (files, q) :: h, x :: xs => ((if reaches_file files q && failed x then 1 else 0) + failures h xs)%nat
  | _, _ => 0%nat
  end.
