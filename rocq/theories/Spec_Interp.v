(** * Spec_Interp: vocabulary of C41-C43 *)
From Verif Require Import Base Num PyStr Writers Config Spec_Config Interp.
Local Open Scope string_scope.

(** a file name: one path component *)
Definition file_name (s : string) : Prop := plain_name s /\ s <> "" /\ s <> "." /\ s <> "..".
(** a request pyg2p makes: a known mode, an input file name without slash *)
Definition good_request (r : request) : Prop := In (q_mode r) (map fst suffixes) /\ plain_name (q_source r).

(** the configuration on disk: the user's entries hide the global ones *)
Definition configured (e : env) (d : disk) (id : string) : option string :=
  match dget String.eqb (d_user d) id with Some n => Some n | None => dget String.eqb (e_global e) id end.
Definition has_table (d : disk) (path id : string) : Prop :=
  exists r, dget String.eqb (d_files d) path = Some (Some r) /\ table_id r = id.
(** every configured identifier has its own table: in the directory of the
    user, or in the global directory under a name pyg2p never chooses *)
Definition own_tables (e : env) (d : disk) (dir : string) : Prop :=
  forall id name, configured e d id = Some name -> file_name name /\
    (has_table d (full_path dir name) id \/
     (starts_with "tbl" name = false /\ exists_file d (full_path dir name) = false /\ exists_file d (full_path dir name +++ ".gz") = false /\
      has_table d (full_path (e_gdir e) name) id)).
(** no file has the double extension .gz.gz *)
Definition no_double_gz (d : disk) : Prop := forall path, exists_file d (path +++ ".gz.gz") = false.
(** the table applied for [r] was built for the same grid, target and mode *)
Definition built_for (r : request) (c : content) : Prop := exists r', c = Some r' /\ table_id r' = table_id r.
(** [d'] has every file of [d], unchanged *)
Definition keeps (d d' : disk) : Prop := forall path c, dget String.eqb (d_files d) path = Some c -> dget String.eqb (d_files d') path = Some c.
(** events of processes that use directory [dir] *)
Definition in_dir (dir : string) (ev : event) : Prop :=
  match ev with Start dir' => dir' = dir | Use r => good_request r | Crash r _ => good_request r end.

(** ** applying a table *)
(** the value an index of a table stands for: a source value, or the missing
    value one past the end *)
Definition used (v : list num) (mv : num) (k : Z) (x : num) : Prop :=
  (0 <= k < Z.of_nat (List.length v) /\ nth_error v (Z.to_nat k) = Some x)%Z \/ (k = Z.of_nat (List.length v) /\ x = mv).

(** ** identifiers *)
Definition near (n : Z) (a b : Qc) : Prop := ((a - b) * ZQ n <= 1 /\ (b - a) * ZQ n <= 1)%Qc.
(** what the identifier of a PCRaster map tells: integer parts of origin and
    cell size, extremes up to one hundredth *)
Definition alike (m m' : pcr_map) : Prop :=
  trunc (m_x m) = trunc (m_x m') /\ trunc (m_y m) = trunc (m_y m') /\ trunc (m_w m) = trunc (m_w m') /\ trunc (m_h m) = trunc (m_h m') /\
  near 100 (m_min m) (m_min m') /\ near 100 (m_max m) (m_max m').
Definition nc_alike (m m' : nc_map) : Prop :=
  trunc (qmin (n_lons m)) = trunc (qmin (n_lons m')) /\ trunc (qmin (n_lats m)) = trunc (qmin (n_lats m')) /\
  trunc (first_step (n_lons m)) = trunc (first_step (n_lons m')) /\ trunc (first_step (n_lats m)) = trunc (first_step (n_lats m')) /\
  near 100 (qmin (n_lats m)) (qmin (n_lats m')) /\ near 100 (qmax (n_lats m)) (qmax (n_lats m')) /\
  near 100 (qmin (n_lons m)) (qmin (n_lons m')) /\ near 100 (qmax (n_lons m)) (qmax (n_lons m')).
(** letters and underscores, as in the grid types of ecCodes *)
Definition letter (c : ascii) : bool := let n := code c in ((97 <=? n)%nat && (n <=? 122)%nat || Ascii.eqb c "_")%bool.
(** weighted sum *)
Fixpoint dot (ws xs : list Qc) : Qc := match ws, xs with w :: ws', x :: xs' => (w * x + dot ws' xs')%Qc | _, _ => 0%Qc end.
Fixpoint total (ws : list Qc) : Qc := match ws with [] => 0%Qc | w :: ws' => (w + total ws')%Qc end.
