(** * Vocabulary in which the aggregation properties are stated.
    Small, and independent of the algorithm in Aggregator.v. *)
From Verif Require Import Base Num Aggregator.
From Coq Require Import Sorting.Sorted.
Local Open Scope Z_scope.

(** the input holds field [a] with end step [t] *)
Definition has_field (values : fields) (t : Z) (a : arr) : Prop :=
  exists k, In (k, a) values /\ s_end k = t.
Definition available (values : fields) (t : Z) : Prop := exists a, has_field values t a.

(** at most one field per end step (one level, one member) *)
Definition one_per_step (values : fields) : Prop := NoDup (map (fun kv => s_end (fst kv)) values).

(** all fields have [n] cells, masks included *)
Definition same_size (values : fields) (n : nat) : Prop :=
  forall k a, In (k, a) values -> asize a = n /\ wf_arr a.

(** no cell is NaN or infinite *)
Definition finite_arr (a : arr) : Prop := forall x, In x (adata a) -> exists q, x = Fin q.
Definition finite_fields (values : fields) : Prop := forall k a, In (k, a) values -> finite_arr a.

(** cell [i] of [a] holds the number [x] *)
Definition cell (a : arr) (i : nat) (x : Qc) : Prop := nth_error (adata a) i = Some (Fin x).

(** [t] is one of [first], [first+s], [first+2s], ... not beyond [last] *)
Definition on_grid (first last s t : Z) : Prop :=
  exists i, 0 <= i /\ t = first + i * s /\ t <= last.

(** the end of the first accumulation window: a request from step 0 means
    from the first window (README, "aggregation") *)
Definition first_window (start s : Z) : Z := if start =? 0 then s else start.

Local Open Scope Qc_scope.
(** sum of rationals *)
Definition Qsum (l : list Qc) : Qc := fold_right Qcplus 0 l.

(** linear interpolation at [t] between the values [xl] at [lo] and [xh] at [hi] *)
Definition lin_interp (lo hi t : Z) (xl xh : Qc) : Qc :=
  xl + (xh - xl) * (ZQ (t - lo) / ZQ (hi - lo)).

Local Open Scope Z_scope.
(** [lo] and [hi] are the nearest available steps around the unavailable [t] *)
Definition gap (values : fields) (lo t hi : Z) : Prop :=
  lo < t < hi /\ available values lo /\ available values hi /\
  forall u, available values u -> u <= lo \/ hi <= u.

(** value of cell [i] at step [t]: that of the field available at [t], or the
    linear interpolation between the nearest available steps *)
Definition series_value (values : fields) (t : Z) (i : nat) (x : Qc) : Prop :=
  (exists c, has_field values t c /\ cell c i x) \/
  (exists lo hi cl ch xl xh, gap values lo t hi /\ has_field values lo cl /\ has_field values hi ch /\
     cell cl i xl /\ cell ch i xh /\ x = lin_interp lo hi t xl xh).

(** [u] is the first available step at or after [t] *)
Definition first_at_or_after (values : fields) (t u : Z) : Prop :=
  available values u /\ t <= u /\ forall w, available values w -> t <= w -> u <= w.
Definition first_after (values : fields) (t u : Z) : Prop :=
  available values u /\ t < u /\ forall w, available values w -> t < w -> u <= w.

(** the [s] unit steps a+1, ..., a+s of the window (a, a+s] *)
Definition unit_steps (a s : Z) : list Z := map (fun i => a + 1 + Z.of_nat i) (seq 0 (Z.to_nat s)).

(** [l] lists, in increasing order, the available steps in [a, b] *)
Definition available_in (values : fields) (a b : Z) (l : list Z) : Prop :=
  StronglySorted Z.lt l /\ forall t, In t l <-> a <= t <= b /\ available values t.

(** trapezoid weight of step [t] in the window [a, a+s] holding [n+1] steps *)
Definition half_weight (a s n t : Z) : Qc :=
  if (t =? a) || (t =? a + s) then (ZQ s / ZQ n / ZQ 2)%Qc else (ZQ s / ZQ n)%Qc.

(** the first field cell [i] of which holds the value used for step [t] by the
    back-filled mean *)
Definition backfill (values : fields) (t : Z) (i : nat) (x : Qc) : Prop :=
  exists u c, first_at_or_after values t u /\ has_field values u c /\ cell c i x.

(** first output step of the instantaneous extraction *)
Definition inst_first (stype : string) (input start s : Z) : Z :=
  if String.eqb stype "avg" then start + input
  else if 0 <? start - s then start - s else start.

(** field scaled by [k], missing flags kept *)
Definition scale_arr (k : Qc) (a : arr) : arr :=
  match a with Nd d => Nd (map (nmul (Fin k)) d) | Ma d m => Ma (map (nmul (Fin k)) d) m end.
Definition scale_fields (k : Qc) (f : fields) : fields := map (fun kv => (fst kv, scale_arr k (snd kv))) f.

(** the cells of [a] listed in [sel], as an array *)
Definition select_arr (sel : list nat) (a : arr) : arr :=
  match a with
  | Nd d => Nd (map (fun j => nth j d NaN) sel)
  | Ma d None => Ma (map (fun j => nth j d NaN) sel) None
  | Ma d (Some m) => Ma (map (fun j => nth j d NaN) sel) (Some (map (fun j => nth j m false) sel))
  end.
Definition select_fields (sel : list nat) (f : fields) : fields := map (fun kv => (fst kv, select_arr sel (snd kv))) f.
(** [b] holds exactly the cells of [a] listed in [sel], missing flags included *)
Definition selects (sel : list nat) (a b : arr) : Prop :=
  adata b = map (fun j => nth j (adata a) NaN) sel /\
  forall i j, nth_error sel i = Some j -> masked_at b i = masked_at a j.
