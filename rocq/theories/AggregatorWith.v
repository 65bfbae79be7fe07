(** * AggregatorWith: aggregator.py over any arithmetic.

    The definitions of Aggregator.v with the four operations of the cells as
    parameters: with those of Num.v they are the exact model (theorem
    [with_exact] below, by reflexivity), with those of Float64.v they compute
    in double precision, one rounding for each operation of numpy and numexpr. *)
From Verif Require Import Base Num Float64 Aggregator.
Local Open Scope Z_scope.

Section With.
  Variables add sub mul div : num -> num -> num.

(** data of [a * k] for a scalar [k], as [ma_scale_data] *)
Definition scale_with (a : arr) (k : num) : list num :=
  match a with
  | Nd d | Ma d None => map (fun x => mul x k) d
  | Ma d (Some m) => zipw (fun x b => if (b : bool) then x else mul x k) d m
  end.

(** aggregator.py:105 and 128: the numexpr expression
    [v_ots_ma + (v_nts_ma-v_ots_ma)*((iter_ - originalts)/(next_ts-originalts))] *)
Definition lin_expr_with (ots nts : list num) (iter originalts next_ts : Z) : res (list num) :=
  do diff <- ew2 sub nts ots;
  let f := div (nint (iter - originalts)) (nint (next_ts - originalts)) in
  ew2 add ots (map (fun x => mul x f) diff).

Definition interp_field_with (v : ofields) (keys : list Z) (t at_ : Z) : res arr :=
  do '(next_ts, originalts) <- neighbours keys t;
  do nts <- dgetx Z.eqb v next_ts;
  do ots <- dgetx Z.eqb v originalts;
  do d <- lin_expr_with (adata ots) (adata nts) at_ originalts next_ts;
  Ok (masked_where (get_masks [ots; nts]) d).

(** aggregator.py:88-106: first part of the loop body (missing [iter_]) *)
Definition acc_fill_iter_with (v : ofields) (keys : list Z) (iter : Z) : res ofields :=
  if zmem iter keys then Ok v
  else do a <- interp_field_with v keys iter iter; Ok (dset Z.eqb v iter a).

(** aggregator.py:108-129: second part (missing [iter_ - step]). Returns the
    new [v_ord] and [created_zero_array]. *)
Definition acc_fill_prev_with (n : nat) (step : Z) (v : ofields) (keys : list Z) (iter : Z) (created : bool)
  : res (ofields * bool) :=
  let prev := iter - step in
  if (0 <=? prev) && negb (zmem prev keys) && negb created then
    (* lines 109-110 evaluated before the test of line 112 *)
    do _next <- py_index keys (Z.of_nat (bisect_left keys prev));
    if prev =? 0 then Ok (dset Z.eqb v 0 (Nd (zeros n)), true)
    else do a <- interp_field_with v keys prev iter; Ok (dset Z.eqb v prev a, created)
  else Ok (v, created).

(** aggregator.py:142-148: output field of one window. [v_iter_ma] is a plain
    array: [np.zeros(...)] with the data of the field added in place. *)
Definition acc_out_with (n : nat) (unit step : Z) (cur prev : arr) : res arr :=
  do v_iter <- ew2 add (zeros n) (adata cur);
  do diff <- ew2 sub v_iter (adata prev);
  let d := map (fun x => div (mul x (nint unit)) (nint step)) diff in
  Ok (masked_where (get_masks [Nd v_iter; prev]) d).

(** aggregator.py:87-148: body of the loop *)
Definition acc_body_with (g : aggr) (n : nat) (resolution level : Z) (st : acc_state) (iter : Z)
  : res acc_state :=
  let keys := dkeys (ac_v st) in
  do v1 <- acc_fill_iter_with (ac_v st) keys iter;
  do '(v2, z2) <- acc_fill_prev_with n (a_step g) v1 keys iter (ac_zero st);
  do prev <- acc_prev_field n (a_step g) (a_force g) v2 iter;
  do cur <- dgetx Z.eqb v2 iter;
  let key := mkStep (iter - a_step g) iter resolution (a_step g) level in
  do out <- acc_out_with n (a_unit g) (a_step g) cur prev;
  Ok (mkAcc v2 z2 (dset step_eqb (ac_out st) key out)).

(** aggregator.py:72-153 [_accumulation] (final state of the loop) *)
Definition accumulation_run_with (g : aggr) (values : fields) : res acc_state :=
  do '(k0, a0) <- first_entry values;
  let v_ord := by_end_step values in
  let start := if a_start g =? 0 then a_step g else a_start g in
  do iters <- py_range start (a_end g + 1) (a_step g);
  foldM (acc_body_with g (asize a0) (s_res k0) (s_level k0)) iters (mkAcc v_ord false []).

Definition accumulation_with (g : aggr) (values : fields) : res fields :=
  do st <- accumulation_run_with g values; Ok (ac_out st).

(** aggregator.py:186-207: half-weight summation of one window; returns the
    sum and [sum_counter]. *)
Definition avg_half_body_with (v : ofields) (iter_from iter_to : Z) (dt1 dt2 : num)
    (s : list num * num) (t : Z) : res (list num * num) :=
  let '(sum, cnt) := s in
  match dget Z.eqb v t with
  | None => Ok s
  | Some a =>
      let w := if (t =? iter_from) || (t =? iter_to - 1) then dt2 else dt1 in
      do sum' <- ew2 add sum (scale_with a w);
      Ok (sum', add cnt w)
  end.

Definition avg_half_with (v : ofields) (n : nat) (step iter : Z) : res (list num * num) :=
  let iter_from := iter in
  let iter_to := iter + step + 1 in
  do ts <- py_range iter_from iter_to 1;
  let count_steps := Z.of_nat (List.length (filter (fun t => zmem t (dkeys v)) ts)) - 1 in
  if 0 <? count_steps then
    let dt1 := div (nint step) (nint count_steps) in
    let dt2 := div dt1 (nint 2) in
    foldM (avg_half_body_with v iter_from iter_to dt1 dt2) ts (zeros n, nint 0)
  else Ok (zeros n, nint 0).

(** aggregator.py:208-224: plain summation of one window *)
Definition avg_plain_body_with (v : ofields) (s : list num * num) (t : Z) : res (list num * num) :=
  let '(sum, cnt) := s in
  let keys := dkeys v in
  do a <- (if zmem t keys then dgetx Z.eqb v t
           else do next <- py_index keys (Z.of_nat (bisect_left keys t)); dgetx Z.eqb v next);
  do sum' <- ew2 add sum (adata a);
  Ok (sum', add cnt (nint 1)).

Definition avg_plain_with (v : ofields) (n : nat) (step iter : Z) : res (list num * num) :=
  do ts <- py_range (iter + 1) (iter + step + 1) 1;
  foldM (avg_plain_body_with v) ts (zeros n, nint 0).

(** aggregator.py:175-232: body of the loop. [get_masks(v_ord.values())] gets
    a single argument that is not a MaskedArray, so it returns None. *)
Definition avg_body_with (g : aggr) (v : ofields) (n : nat) (resolution level : Z) (out : fields) (iter : Z)
  : res fields :=
  do '(sum, cnt) <- (if a_half g then avg_half_with v n (a_step g) iter else avg_plain_with v n (a_step g) iter);
  let key := mkStep iter (iter + a_step g) resolution (a_step g) level in
  let d := map (fun x => div x cnt) sum in
  Ok (dset step_eqb out key (masked_where None d)).

(** aggregator.py:155-236 [_average] *)
Definition average_with (g : aggr) (values : fields) : res fields :=
  if String.eqb (a_step_type g) "accum" then Raise (AppExc 6100)
  else
    do '(k0, a0) <- first_entry values;
    let v := by_end_step values in
    let '(b, e) := avg_bounds g in
    do iters <- py_range b e (a_step g);
    foldM (avg_body_with g v (asize a0) (s_res k0) (s_level k0)) iters [].

(** aggregator.py:258-277: body of the loop of [_instantaneous] *)
Definition inst_body_with (g : aggr) (v : ofields) (n : nat) (resolution level : Z) (out : fields) (iter : Z)
  : res fields :=
  let key := mkStep iter iter resolution (a_step g) level in
  let keys := dkeys v in
  do d <- (if zmem iter keys then do a <- dgetx Z.eqb v iter; ew2 add (zeros n) (adata a)
           else if iter =? 0 then Ok (zeros n)
           else do next <- py_index keys (Z.of_nat (bisect_right keys iter));
                do a <- dgetx Z.eqb v next; ew2 add (zeros n) (adata a));
  Ok (dset step_eqb out key (Nd d)).

(** aggregator.py:244-279 [_instantaneous] *)
Definition instantaneous_with (g : aggr) (values : fields) : res fields :=
  if String.eqb (a_step_type g) "accum" then Raise (AppExc 6100)
  else
    let start := find_start g in
    let v := by_end_step values in
    do '(k0, a0) <- first_entry values;
    do iters <- py_range start (a_end g + 1) (a_step g);
    foldM (inst_body_with g v (asize a0) (s_res k0) (s_level k0)) iters [].

(** aggregator.py:51-53, 62-70 [do_manipulation]: dispatch on the type *)
Definition do_manipulation_with (g : aggr) (values : fields) : res fields :=
  if String.eqb (a_type g) "accumulation" then accumulation_with g values
  else if String.eqb (a_type g) "average" then average_with g values
  else if String.eqb (a_type g) "instantaneous" then instantaneous_with g values
  else Raise KeyError.

End With.

(** the exact model is this one with the exact operations *)
Theorem with_exact : do_manipulation_with nadd nsub nmul ndiv = do_manipulation.
Proof. reflexivity. Qed.

(** the computation in double precision *)
Definition do_manipulation64 : aggr -> fields -> res fields := do_manipulation_with fadd fsub fmul fdiv.
