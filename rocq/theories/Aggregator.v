(** * Aggregator: model of src/pyg2p/main/manipulation/aggregator.py *)
From Verif Require Import Base Num.
Local Open Scope Z_scope.

(** src/pyg2p/__init__.py:30-38 [Step.__init__] *)
Record step := mkStep
  { s_start : Z; s_end : Z; s_res : Z; s_input : Z; s_level : Z }.

(** src/pyg2p/__init__.py:43-45 [Step.__eq__] *)
Definition step_eqb (a b : step) : bool :=
  (s_start a =? s_start b) && (s_end a =? s_end b) && (s_res a =? s_res b)
  && (s_input a =? s_input b) && (s_level a =? s_level b).

(** fields keyed by step: the dict returned by Messages / the aggregator *)
Definition fields := list (step * arr).
(** fields keyed by end step: the OrderedDict [v_ord] *)
Definition ofields := list (Z * arr).

(** aggregator.py:27-53 the attributes set by [Aggregator.__init__] *)
Record aggr := mkAggr
  { a_step_type : string;   (* stepType of the GRIB *)
    a_input_step : Z;
    a_unit : Z;
    a_step : Z;             (* _aggregation_step *)
    a_type : string;        (* _aggregation *)
    a_half : bool;          (* _aggregation_halfweights *)
    a_force : bool;         (* _force_zero *)
    a_start : Z;
    a_end : Z;
    a_sec : bool;           (* _second_t_res *)
    a_usable : Z            (* _usable_start *)
  }.

(** aggregator.py:27-53 [Aggregator.__init__] (the [int(...)] conversions of
    already integral arguments are the identity) *)
Definition aggr_init (step_type : string) (input_step unit aggr_step : Z) (aggr_type : string)
    (half force : bool) (start end_ : Z) (sec : bool) : aggr :=
  let usable := if negb (input_step =? 0)
                then (let u := start - aggr_step in if u <? 0 then 0 else u)
                else start in
  mkAggr step_type input_step unit aggr_step aggr_type half force start end_ sec usable.

(** aggregator.py:55-57 [change_end_step] *)
Definition change_end_step (g : aggr) (e : Z) : aggr :=
  mkAggr (a_step_type g) (a_input_step g) (a_unit g) (a_step g) (a_type g)
         (a_half g) (a_force g) (a_start g) e (a_sec g) (a_usable g).

(** aggregator.py:59-60 [get_real_start_end_steps] *)
Definition real_start_end (g : aggr) : Z * Z := (a_usable g, a_end g).

(** aggregator.py:79, 167, 252: [OrderedDict(sorted(dict((k.end_step, v)).items()))] *)
Definition by_end_step (values : fields) : ofields :=
  sort_by fst (dict_of Z.eqb (map (fun kv => (s_end (fst kv), snd kv)) values)).

(** aggregator.py:105 and 128: the numexpr expression
    [v_ots_ma + (v_nts_ma-v_ots_ma)*((iter_ - originalts)/(next_ts-originalts))] *)
Definition lin_expr (ots nts : list num) (iter originalts next_ts : Z) : res (list num) :=
  do diff <- ew2 nsub nts ots;
  let f := ndiv (nint (iter - originalts)) (nint (next_ts - originalts)) in
  ew2 nadd ots (map (fun x => nmul x f) diff).

(** aggregator.py:91-106 and 109-129: find the neighbours of time [t] in
    [keys] and evaluate the interpolation expression at time [at_]. The code
    calls it with [at_ = t = iter_] (line 105) and with [t = iter_ - step],
    [at_ = iter_] (line 128). *)
Definition neighbours (keys : list Z) (t : Z) : res (Z * Z) :=
  let inext := bisect_left keys t in
  do next_ts <- py_index keys (Z.of_nat inext);
  let iorig := bisect_right keys t in
  let iorig := if Nat.eqb iorig inext then Z.of_nat iorig - 1 else Z.of_nat iorig in
  do originalts <- py_index keys iorig;
  Ok (next_ts, originalts).

Definition interp_field (v : ofields) (keys : list Z) (t at_ : Z) : res arr :=
  do '(next_ts, originalts) <- neighbours keys t;
  do nts <- dgetx Z.eqb v next_ts;
  do ots <- dgetx Z.eqb v originalts;
  do d <- lin_expr (adata ots) (adata nts) at_ originalts next_ts;
  Ok (masked_where (get_masks [ots; nts]) d).

(** aggregator.py:88-106: first part of the loop body (missing [iter_]) *)
Definition acc_fill_iter (v : ofields) (keys : list Z) (iter : Z) : res ofields :=
  if zmem iter keys then Ok v
  else do a <- interp_field v keys iter iter; Ok (dset Z.eqb v iter a).

(** aggregator.py:108-129: second part (missing [iter_ - step]). Returns the
    new [v_ord] and [created_zero_array]. *)
Definition acc_fill_prev (n : nat) (step : Z) (v : ofields) (keys : list Z) (iter : Z) (created : bool)
  : res (ofields * bool) :=
  let prev := iter - step in
  if (0 <=? prev) && negb (zmem prev keys) && negb created then
    (* lines 109-110 evaluated before the test of line 112 *)
    do _next <- py_index keys (Z.of_nat (bisect_left keys prev));
    if prev =? 0 then Ok (dset Z.eqb v 0 (Nd (zeros n)), true)
    else do a <- interp_field v keys prev iter; Ok (dset Z.eqb v prev a, created)
  else Ok (v, created).

(** aggregator.py:131-138: the field subtracted *)
Definition acc_prev_field (n : nat) (step : Z) (force : bool) (v : ofields) (iter : Z) : res arr :=
  if (iter - step =? 0) && force then Ok (Nd (zeros n))
  else dgetx Z.eqb v (iter - step).

(** aggregator.py:142-148: output field of one window. [v_iter_ma] is a plain
    array: [np.zeros(...)] with the data of the field added in place. *)
Definition acc_out (n : nat) (unit step : Z) (cur prev : arr) : res arr :=
  do v_iter <- ew2 nadd (zeros n) (adata cur);
  do diff <- ew2 nsub v_iter (adata prev);
  let d := map (fun x => ndiv (nmul x (nint unit)) (nint step)) diff in
  Ok (masked_where (get_masks [Nd v_iter; prev]) d).

Record acc_state := mkAcc { ac_v : ofields; ac_zero : bool; ac_out : fields }.

(** aggregator.py:87-148: body of the loop *)
Definition acc_body (g : aggr) (n : nat) (resolution level : Z) (st : acc_state) (iter : Z)
  : res acc_state :=
  let keys := dkeys (ac_v st) in
  do v1 <- acc_fill_iter (ac_v st) keys iter;
  do '(v2, z2) <- acc_fill_prev n (a_step g) v1 keys iter (ac_zero st);
  do prev <- acc_prev_field n (a_step g) (a_force g) v2 iter;
  do cur <- dgetx Z.eqb v2 iter;
  let key := mkStep (iter - a_step g) iter resolution (a_step g) level in
  do out <- acc_out n (a_unit g) (a_step g) cur prev;
  Ok (mkAcc v2 z2 (dset step_eqb (ac_out st) key out)).

(** first key of the dict: aggregator.py:75-78, 162-165, 254-257 *)
Definition first_entry (values : fields) : res (step * arr) :=
  match values with [] => Raise IndexError | kv :: _ => Ok kv end.

(** aggregator.py:72-153 [_accumulation] (final state of the loop) *)
Definition accumulation_run (g : aggr) (values : fields) : res acc_state :=
  do '(k0, a0) <- first_entry values;
  let v_ord := by_end_step values in
  let start := if a_start g =? 0 then a_step g else a_start g in
  do iters <- py_range start (a_end g + 1) (a_step g);
  foldM (acc_body g (asize a0) (s_res k0) (s_level k0)) iters (mkAcc v_ord false []).

Definition accumulation (g : aggr) (values : fields) : res fields :=
  do st <- accumulation_run g values; Ok (ac_out st).

(** aggregator.py:186-207: half-weight summation of one window; returns the
    sum and [sum_counter]. *)
Definition avg_half_body (v : ofields) (iter_from iter_to : Z) (dt1 dt2 : num)
    (s : list num * num) (t : Z) : res (list num * num) :=
  let '(sum, cnt) := s in
  match dget Z.eqb v t with
  | None => Ok s
  | Some a =>
      let w := if (t =? iter_from) || (t =? iter_to - 1) then dt2 else dt1 in
      do sum' <- ew2 nadd sum (ma_scale_data a w);
      Ok (sum', nadd cnt w)
  end.

Definition avg_half (v : ofields) (n : nat) (step iter : Z) : res (list num * num) :=
  let iter_from := iter in
  let iter_to := iter + step + 1 in
  do ts <- py_range iter_from iter_to 1;
  let count_steps := Z.of_nat (List.length (filter (fun t => zmem t (dkeys v)) ts)) - 1 in
  if 0 <? count_steps then
    let dt1 := ndiv (nint step) (nint count_steps) in
    let dt2 := ndiv dt1 (nint 2) in
    foldM (avg_half_body v iter_from iter_to dt1 dt2) ts (zeros n, nint 0)
  else Ok (zeros n, nint 0).

(** aggregator.py:208-224: plain summation of one window *)
Definition avg_plain_body (v : ofields) (s : list num * num) (t : Z) : res (list num * num) :=
  let '(sum, cnt) := s in
  let keys := dkeys v in
  do a <- (if zmem t keys then dgetx Z.eqb v t
           else do next <- py_index keys (Z.of_nat (bisect_left keys t)); dgetx Z.eqb v next);
  do sum' <- ew2 nadd sum (adata a);
  Ok (sum', nadd cnt (nint 1)).

Definition avg_plain (v : ofields) (n : nat) (step iter : Z) : res (list num * num) :=
  do ts <- py_range (iter + 1) (iter + step + 1) 1;
  foldM (avg_plain_body v) ts (zeros n, nint 0).

(** aggregator.py:168-173: first and last (excluded) window start *)
Definition avg_bounds (g : aggr) : Z * Z :=
  if (a_start g =? 0) || a_sec g
  then (a_start g, a_end g - a_step g + 2)
  else (a_start g - a_step g, a_end g - a_step g + 1).

(** aggregator.py:175-232: body of the loop. [get_masks(v_ord.values())] gets
    a single argument that is not a MaskedArray, so it returns None. *)
Definition avg_body (g : aggr) (v : ofields) (n : nat) (resolution level : Z) (out : fields) (iter : Z)
  : res fields :=
  do '(sum, cnt) <- (if a_half g then avg_half v n (a_step g) iter else avg_plain v n (a_step g) iter);
  let key := mkStep iter (iter + a_step g) resolution (a_step g) level in
  let d := map (fun x => ndiv x cnt) sum in
  Ok (dset step_eqb out key (masked_where None d)).

(** aggregator.py:155-236 [_average] *)
Definition average (g : aggr) (values : fields) : res fields :=
  if String.eqb (a_step_type g) "accum" then Raise (AppExc 6100)
  else
    do '(k0, a0) <- first_entry values;
    let v := by_end_step values in
    let '(b, e) := avg_bounds g in
    do iters <- py_range b e (a_step g);
    foldM (avg_body g v (asize a0) (s_res k0) (s_level k0)) iters [].

(** aggregator.py:238-242 [_find_start] *)
Definition find_start (g : aggr) : Z :=
  let start := if 0 <? a_start g - a_step g then a_start g - a_step g else a_start g in
  if String.eqb (a_step_type g) "avg" then a_start g + a_input_step g else start.

(** aggregator.py:258-277: body of the loop of [_instantaneous] *)
Definition inst_body (g : aggr) (v : ofields) (n : nat) (resolution level : Z) (out : fields) (iter : Z)
  : res fields :=
  let key := mkStep iter iter resolution (a_step g) level in
  let keys := dkeys v in
  do d <- (if zmem iter keys then do a <- dgetx Z.eqb v iter; ew2 nadd (zeros n) (adata a)
           else if iter =? 0 then Ok (zeros n)
           else do next <- py_index keys (Z.of_nat (bisect_right keys iter));
                do a <- dgetx Z.eqb v next; ew2 nadd (zeros n) (adata a));
  Ok (dset step_eqb out key (Nd d)).

(** aggregator.py:244-279 [_instantaneous] *)
Definition instantaneous (g : aggr) (values : fields) : res fields :=
  if String.eqb (a_step_type g) "accum" then Raise (AppExc 6100)
  else
    let start := find_start g in
    let v := by_end_step values in
    do '(k0, a0) <- first_entry values;
    do iters <- py_range start (a_end g + 1) (a_step g);
    foldM (inst_body g v (asize a0) (s_res k0) (s_level k0)) iters [].

(** aggregator.py:51-53, 62-70 [do_manipulation]: dispatch on the type *)
Definition do_manipulation (g : aggr) (values : fields) : res fields :=
  if String.eqb (a_type g) "accumulation" then accumulation g values
  else if String.eqb (a_type g) "average" then average g values
  else if String.eqb (a_type g) "instantaneous" then instantaneous g values
  else Raise KeyError.
