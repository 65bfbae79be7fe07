(** * Vocabulary of C93: the whole program. *)
From Verif Require Import Base Num PyStr Strings Config Context Aggregator Converter Reader Controller Spec_Controller Spec_Reader Spec_Context Spec_Flow.
Local Open Scope string_scope.

(** not the error for no messages *)
Definition no3 {A} (r : res A) : Prop := r <> Raise (AppExc 3000).
(** the writers and the interpolation (with correction) never report that there
    are no messages *)
Definition quiet (o : ext) : Prop :=
  (forall x mv, no3 (xt_writer o x mv)) /\ (forall g b a, no3 (xt_map o g b a)) /\ (forall w, no3 (xt_put o w)) /\
  no3 (xt_nc_open o) /\ (forall ws, no3 (xt_nc_write o ws)).

(** there is nothing to extract: the file has no message with the short name
    (and the member), or none that is asked for, or the second file has none *)
Definition nothing_to_read (o : ext) (x : ctx) (nm : string) (f : gfile) : Prop :=
  Forall (fun m => ~ same_variable x nm m) (gf_msgs f) \/
  exists i t st en g, file_range x nm f i /\ choose_range x i t = Ok (st, en, g) /\
    (Forall (fun m => ~ wanted_message x nm st en m) (gf_msgs f) \/
     jtruthy (x_input2 x) = true /\ forall f2, xt_file o (x_input2 x) = Some f2 -> usable_file f2 -> Forall (fun m => ~ wanted_message x nm st en m) (gf_msgs f2)).

(** every field of the execution has been written *)
Definition all_written (o : ext) (x : ctx) (w : world) (s : cst) : Prop :=
  exists vals m change s1, execute o x true (cst0 w) = (Ok (vals, m, change), s1) /\
    map (fun w => (wn_step w, wn_field w)) (c_out s) = vals.
(** nothing has been written, and there was nothing to write *)
Definition none_written (o : ext) (x : ctx) (s : cst) : Prop :=
  c_out s = [] /\ forall nm f, usable_request x nm -> xt_file o (x_input x) = Some f -> usable_file f -> nothing_to_read o x nm f.
