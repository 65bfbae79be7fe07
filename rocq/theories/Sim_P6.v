(** * Sim_P6: the API call against the command (for C98). *)
From Verif Require Import Base Base_P Num PyStr Strings Config Context Aggregator Converter Reader Spec_Reader Reader_P Reader_P2 Reader_P3 Controller Spec_Controller Writers Api Spec_Api Props_Setup2 Sim_P Sim_P2 Sim_P3 Sim_P4 Sim_P5.
From Coq Require Import Lia Permutation Sorted.
Local Open Scope string_scope.

Lemma half_range x i t : jtruthy (x_ahalf x) = false -> choose_range (without_format_half x) i t = choose_range x i t.
Proof. intro H. unfold choose_range, new_aggr. cbn [without_format_half x_tstart x_tend x_doAggr x_unitTime x_astep x_atype x_ahalf x_aforce]. rewrite H. reflexivity. Qed.
Lemma half_values x : jtruthy (x_ahalf x) = false -> forall ev i e g m, exec_values ev (without_format_half x) i e g m = exec_values ev x i e g m.
Proof.
  intros H ev i e g m. unfold exec_values, convert_messages, aggregate, second_res, new_aggr.
  cbn [without_format_half x_doConv x_convFun x_cutoff x_astep x_doAggr x_unitTime x_atype x_ahalf x_aforce]. rewrite H. reflexivity.
Qed.

Section Both.
Variable o o' : ext.
Variable x : ctx.
Variable w : world.
Variable cm : option (list bool).
Variable mv : num.
Hypothesis good : good_world w.
Hypothesis out : same_outside o o'.
Hypothesis half : jtruthy (x_ahalf x) = false.
Hypothesis Hw1 : forall v, xt_writer o x v = Ok tt.
Hypothesis Hw2 : forall v, xt_writer o' (without_format_half x) v = Ok tt.
Let x' := without_format_half x.

Lemma raise_first r s e : execute o x false (cst0 w) = (r, s) ->
  (forall r0 w0 attrs, reader_new (xt_file o (x_input x)) (negb (is_null (x_member x))) w = (Ok r0, w0) -> select_cmd_attrs x = Ok attrs -> exists r1, get_grib_info attrs r0 w0 = (Raise e, r1)) ->
  (forall e0 w0, reader_new (xt_file o (x_input x)) (negb (is_null (x_member x))) w = (Raise e0, w0) -> e0 = e) ->
  (forall r0 w0 e0, reader_new (xt_file o (x_input x)) (negb (is_null (x_member x))) w = (Ok r0, w0) -> select_cmd_attrs x = Raise e0 -> e0 = e) -> r = Raise e.
Proof.
  intros H A B C. unfold execute, init_execution, bind, open1, lift, on1 in H. cbn [c_w cst0] in H. destruct (reader_new (xt_file o (x_input x)) (negb (is_null (x_member x))) w) as [[r0|e0] w0] eqn:E.
  - destruct (select_cmd_attrs x) as [attrs|e0] eqn:Ea.
    + destruct (A _ _ _ eq_refl eq_refl) as ([r1 w1] & Eg). cbn [c_r1 c_w] in H. rewrite Eg in H. congruence.
    + rewrite (C _ _ _ eq_refl eq_refl) in H. congruence.
  - rewrite (B _ _ eq_refl) in H. congruence.
Qed.
Lemma both r s q s' : execute o x false (cst0 w) = (r, s) -> api_execute (api_ext cm mv o') x' w = (q, s') ->
  match r with
  | Raise e => q = Raise e
  | Ok (v, m, c) => exists k, q = nc_loop (api_ext cm mv o') (smsg k m) c false 0 v /\
      forall f, interpolates o f (c_w s) -> interpolates o' f (c_w s') ->
      forall second a, xt_map o' (sgrid k (grid_of m second)) second a = xt_map o (grid_of m second) second a
  end.
Proof.
  destruct out as [Of On]. intros H1 H2. unfold api_execute in H2. cbn [api_ext xt_file] in H2. rewrite Of in H2. unfold x' in H2. cbn [without_format_half x_input x_member] in H2.
  change (select_cmd_attrs (without_format_half x)) with (select_cmd_attrs x) in H2.
  destruct (reader_new (xt_file o (x_input x)) (negb (is_null (x_member x))) w) as [[r0|e0] w0] eqn:En.
  2: { assert (R : r = Raise e0). { apply (raise_first _ _ _ H1); intros; congruence. } rewrite R. congruence. }
  destruct (select_cmd_attrs x) as [attrs|e0] eqn:Ea.
  2: { assert (R : r = Raise e0). { apply (raise_first _ _ _ H1); intros; congruence. } rewrite R. congruence. }
  destruct (get_grib_info attrs r0 w0) as [[[[i t] mv0]|e0] [r1 w1]] eqn:Eg.
  2: { assert (R : r = Raise e0). { apply (raise_first _ _ _ H1); intros; try congruence. assert (r2 = r0 /\ w2 = w0 /\ attrs0 = attrs) as (-> & -> & ->) by (repeat split; congruence). eauto. } rewrite R. congruence. }
  assert (G1 : good_world w1).
  { destruct (xt_file o (x_input x)) as [fl|] eqn:Ef; [|discriminate]. pose proof (reader_new_inv _ _ _ _ _ good En) as I1.
    exact (proj1 (info_step _ _ _ _ _ _ _ _ _ _ _ I1 Eg (or_introl eq_refl))). }
  set (n := w_next w). set (k := (w_next w1 - w_next w)%Z).
  assert (low1 : Forall (fun gm => fst gm < n)%Z (w_live w)) by exact (proj2 good).
  assert (low2 : Forall (fun gm => fst gm < n + k)%Z (w_live w1)) by (replace (n + k)%Z with (w_next w1) by (unfold n, k; lia); exact (proj2 G1)).
  assert (S : srel n k (w_live w) (w_live w1) (cst0 w) (cst0 w1)).
  { split; [|split; exact I]. cbn [c_w cst0]. split; [exact good|]. split; [unfold n; lia|]. split; [unfold k; lia|]. exists []. rewrite !app_nil_r. split; [reflexivity|]. split; [reflexivity|constructor]. }
  pose proof (mrel_execute n k (w_live w) (w_live w1) low1 low2 o (api_ext cm mv o') x (without_format_half x) Of On Hw1 Hw2 eq_refl eq_refl eq_refl eq_refl eq_refl (fun _ _ => eq_refl)
    (fun i0 t0 => half_range x i0 t0 half) (half_values x half) (cst0 w) (cst0 w1) S I) as K.
  rewrite H1 in K. destruct (execute (api_ext cm mv o') (without_format_half x) false (cst0 w1)) as [[[[v2 m2] c2]|e2] s2].
  - destruct r as [[[v m] c]|e]; [|contradiction]. destruct K as [(-> & -> & [-> Hl]) (R & _)]. assert (s' = s2) by congruence. subst s2. exists k. split; [unfold api_loop in H2; congruence|].
    intros f F1 F2 second a.
    assert (L : live n (c_w s) (g_gid (grid_of m second))). { unfold grid_of. destruct Hl as [A B]. destruct second; [|exact A]. destruct (m_grid2 m) as [[gr kk]|]; [eauto|exact A]. }
    destruct L as (N & mm & D). rewrite (F1 (grid_of m second) mm second a D). apply (F2 (sgrid k (grid_of m second)) mm second a). cbn [sgrid g_gid].
    rewrite (rel_live n k (w_live w) (w_live w1) low1 low2 _ _ _ R N). exact D.
  - destruct r as [vm|e]; [contradiction|]. subst e2. congruence.
Qed.
End Both.
