(** * Spec_Target: vocabulary of C80-C83 (target maps and their coordinates). *)
From Verif Require Import Base Num PyStr Strings Writers Target.
Local Open Scope string_scope.

(** cell (i, j) of an array holds [x] *)
Definition cell (m : matrix) (i j : nat) (x : num) : Prop :=
  exists r, nth_error m i = Some r /\ nth_error r j = Some x.

(** the names under which a netCDF file gives its coordinates *)
Definition coordinate_names (dy dx : string) : Prop := (dy = "lat" /\ dx = "lon") \/ (dy = "y" /\ dx = "x").
(** a coordinate variable: one dimension, its own *)
Definition is_coordinate (f : nfile) (d : string) (xs : list num) : Prop :=
  exists v, In v f /\ v_name v = d /\ v_dims v = [(d, List.length xs)] /\ v_data v = xs.
(** a netCDF file on a regular grid: a variable [v] over latitudes [ys] and
    longitudes [xs], at least two of each; names of variables differ *)
Definition regular_file (f : nfile) (dy dx : string) (ys xs : list num) : Prop :=
  NoDup (map v_name f) /\ coordinate_names dy dx /\ (dx = "x" -> ~ In "lon" (map v_name f)) /\
  is_coordinate f dy ys /\ is_coordinate f dx xs /\ (2 <= List.length ys)%nat /\ (2 <= List.length xs)%nat.
Definition over_lat_lon (v : nvar) (dy dx : string) (ys xs : list num) : Prop :=
  v_dims v = [(dy, List.length ys); (dx, List.length xs)].
Definition over_lon_lat (v : nvar) (dy dx : string) (ys xs : list num) : Prop :=
  v_dims v = [(dx, List.length xs); (dy, List.length ys)].
(** the only variable with two dimensions or more *)
Definition only_variable (f : nfile) (v : nvar) : Prop :=
  In v f /\ (2 <= List.length (v_dims v))%nat /\ forall w, In w f -> (2 <= List.length (v_dims w))%nat -> w = v.

(** ** C81 *)
(** a stored value that means missing, by the netCDF conventions and for the
    netCDF4 library: missing_value, _FillValue, or without the latter the
    default fill value of the type *)
Definition missing_cell (v : nvar) (x : num) : Prop :=
  v_mv v = Some x \/ v_fill v = Some x \/ (v_fill v = None /\ x = Fin (fillval (v_fmt v))).
(** what the users of a map treat as missing, given the reported missing value *)
Definition recognised (mv x : num) : Prop := neqb x mv = true \/ x = NaN.
