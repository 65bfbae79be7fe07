(** * Spec_Flow: vocabulary of C84 (from the messages of a file to the maps
    written). *)
From Verif Require Import Base Num PyStr Strings Config Context Spec_Context Aggregator Converter Reader Spec_Reader Controller Spec_Controller.
From Coq Require Import Permutation Sorted.
Local Open Scope string_scope.

(** ** The request *)
(** absent, a number or a text *)
Definition plain (j : json) : Prop := match j with JNull | JNum _ | JStr _ => True | _ => False end.
(** a request as it comes out of an accepted command (C32_scalars): the short
    name [nm] differs from its variants *)
Definition usable_request (x : ctx) (nm : string) : Prop :=
  x_short x = JStr nm /\ NoDup [nm; upper nm; nm +++ "var"] /\
  plain (x_level x) /\ plain (x_dataTime x) /\ plain (x_dataDate x) /\
  (x_member x = JNull \/ exists z, x_member x = JNum z).
(** a file eccodes can index, whose messages have steps *)
Definition usable_file (f : gfile) : Prop :=
  gf_indexable f = true /\ Forall (fun m => (exists a, has_int m "startStep" a) /\ exists b, has_int m "endStep" b) (gf_msgs f).

(** the message is asked for: its short name is one of the variants, level,
    time, date and member are those requested (if any is), and its steps are in
    the window *)
Definition wanted_message (x : ctx) (nm : string) (s e : Z) (m : gmsg) : Prop :=
  (exists t, dget String.eqb (gm_keys m) "shortName" = Some (JStr t) /\ short_variant nm t) /\
  opt_matches (x_level x) (gm_keys m) "level" /\ opt_matches (x_dataTime x) (gm_keys m) "dataTime" /\
  opt_matches (x_dataDate x) (gm_keys m) "dataDate" /\ opt_matches (x_member x) (gm_keys m) "perturbationNumber" /\
  exists a b, has_int m "startStep" a /\ has_int m "endStep" b /\ in_window s e a b.
(** the message is one of those the range of steps of the file is taken from *)
Definition same_variable (x : ctx) (nm : string) (m : gmsg) : Prop :=
  dget String.eqb (gm_keys m) "shortName" = Some (JStr nm) /\ opt_matches (x_member x) (gm_keys m) "perturbationNumber".

(** [ms] are the elements of [l] that satisfy [P], each as often as in [l] *)
Definition those {A} (P : A -> Prop) (l ms : list A) : Prop :=
  exists rest, Permutation (ms ++ rest) l /\ Forall P ms /\ Forall (fun a => ~ P a) rest.

(** first and last step of the file, for the variable *)
Definition file_range (x : ctx) (nm : string) (f : gfile) (i : steps_info) : Prop :=
  exists ms ps, those (same_variable x nm) (gf_msgs f) ms /\
    Forall2 (fun m p => has_int m "startStep" (fst p) /\ has_int m "endStep" (snd p)) ms ps /\
    is_min (i_start i) (map fst ps) /\ is_max (i_end i) (map snd ps).

(** the fields read from a file: those of the wanted messages. On one grid they
    are all in the first set; from the message on where the grid changes, in the
    second. [step], [step2], [change]: the temporal resolutions put in the keys. *)
Definition read_from (x : ctx) (nm : string) (s e : Z) (f : gfile) (step step2 : Z) (change : string) (m : messages) : Prop :=
  exists gms, those (wanted_message x nm s e) (gf_msgs f) (map snd gms) /\
    (exists g0 m0, In (g0, m0) gms /\ grid_details g0 m0 = Ok (m_grid m)) /\
    (forall n, Forall (fun gm => has_int (snd gm) "Nj" n) gms ->
       exists xs, Forall2 reads (map snd gms) xs /\ holds (m_first m) (entries step step2 change [] xs) /\
         m_second m = [] /\ m_grid2 m = None) /\
    (forall n gms1 gms2, gms = (gms1 ++ gms2)%list -> gms1 <> [] -> gms2 <> [] ->
       Forall (fun gm => has_int (snd gm) "Nj" n) gms1 -> Forall (fun gm => exists n2, has_int (snd gm) "Nj" n2 /\ n2 <> n) gms2 ->
       exists xs1 xs2, Forall2 reads (map snd gms1) xs1 /\ Forall2 reads (map snd gms2) xs2 /\
         holds (m_first m) (entries step step2 change [] xs1) /\ holds (m_second m) (entries step step2 change xs1 xs2) /\
         exists gr k, m_grid2 m = Some (gr, k) /\ exists g m', In (g, m') gms2 /\ grid_details g m' = Ok gr).

(** what identifies a field of a file *)
Definition rd_id (r : reading) : Z * Z * Z * Z := (rd_start r, rd_end r, rd_nj r, rd_level r).
(** the same of a written map *)
Definition wn_id (w : written) : Z * Z * Z * Z := let k := wn_step w in (s_start k, s_end k, s_res k, s_level k).
