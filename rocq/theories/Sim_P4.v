(** * Sim_P4: the API and the command (for C98). *)
From Verif Require Import Base Base_P Num PyStr Strings Config Context Aggregator Converter Reader Spec_Reader Reader_P2 Reader_P3 Controller Spec_Controller Controller_P Controller_P2 Controller_P3 Controller_P6 Reader_P Writers Api Spec_Api Flow_P Props_Setup2 Sim_P Sim_P2 Sim_P3.
From Coq Require Import Lia Permutation Sorted.
Local Open Scope string_scope.

(** ** keys of the fields *)
Lemma manip_nodup g values out : do_manipulation g values = Ok out -> NoDup (map fst out).
Proof.
  assert (D : forall d k v, NoDup (map (@fst step arr) d) -> NoDup (map fst (dset step_eqb d k v : fields))) by (intros d k v H0; apply (NoDup_dset step_eqb step_eqb_iff); exact H0).
  unfold do_manipulation. intro H. destruct (String.eqb (a_type g) "accumulation").
  { unfold accumulation in H. apply rbind_ok in H as [st [H Ho]]. unfold accumulation_run in H. apply rbind_ok in H as [[k0 a0] [_ H]]. apply rbind_ok in H as [iters [_ H]].
    assert (K : NoDup (map fst (ac_out st))); [|congruence].
    refine (foldM_inv (acc_body g (asize a0) (s_res k0) (s_level k0)) (fun s => NoDup (map fst (ac_out s))) iters _ st _ _ H); [|constructor].
    intros s t s' _ Hinv Hb. unfold acc_body in Hb. apply rbind_ok in Hb as [v1 [_ Hb]]. apply rbind_ok in Hb as [[v2 z2] [_ Hb]].
    apply rbind_ok in Hb as [p [_ Hb]]. apply rbind_ok in Hb as [c [_ Hb]]. apply rbind_ok in Hb as [o [_ Hb]]. injection Hb as <-. cbn [ac_out]. now apply D. }
  destruct (String.eqb (a_type g) "average").
  { unfold average in H. destruct (String.eqb (a_step_type g) "accum"); [discriminate|]. apply rbind_ok in H as [[k0 a0] [_ H]].
    destruct (avg_bounds g) as [b e]. apply rbind_ok in H as [iters [_ H]].
    refine (foldM_inv _ (fun s => NoDup (map fst s)) iters _ out _ _ H); [|constructor].
    intros s t s' _ Hinv Hb. unfold avg_body in Hb. apply rbind_ok in Hb as [[sum cnt] [_ Hb]]. injection Hb as <-. now apply D. }
  destruct (String.eqb (a_type g) "instantaneous"); [|discriminate].
  unfold instantaneous in H. destruct (String.eqb (a_step_type g) "accum"); [discriminate|]. apply rbind_ok in H as [[k0 a0] [_ H]]. apply rbind_ok in H as [iters [_ H]].
  refine (foldM_inv _ (fun s => NoDup (map fst s)) iters _ out _ _ H); [|constructor].
  intros s t s' _ Hinv Hb. unfold inst_body in Hb. apply rbind_ok in Hb as [d [_ Hb]]. injection Hb as <-. now apply D.
Qed.
Lemma build_nodup step step2 change ms m : build_messages step step2 change ms = Ok m -> NoDup (map fst (m_first m)).
Proof.
  intro H. unfold build_messages in H. destruct ms as [|[g0 m0] ms]; [discriminate|]. apply rbind_ok in H as (main & _ & H). cbv zeta in H. do 7 apply rbind_ok in H as (? & _ & H).
  apply rbind_ok in H as (st & Hst & H). do 3 apply rbind_ok in H as (? & _ & H). assert (m_first m = ss_first st) as -> by (injection H as <-; reflexivity). clear H.
  refine (foldM_inv _ (fun s => NoDup (map fst (ss_first s))) _ _ st _ _ Hst); [|constructor].
  intros s [g1 m1] s' _ Hinv Hb. unfold select_body in Hb. do 4 apply rbind_ok in Hb as (? & _ & Hb). cbv zeta in Hb. do 2 apply rbind_ok in Hb as (? & _ & Hb).
  repeat match type of Hb with context [match ?b with _ => _ end] => destruct b end; injection Hb as <-; cbn [ss_first]; try exact Hinv; apply (NoDup_dset step_eqb step_eqb_iff); exact Hinv.
Qed.
Lemma select_nodup sel r w m rw : select_messages sel r w = (Ok m, rw) -> NoDup (map fst (m_first m)).
Proof.
  unfold select_messages. destruct (get_gids sel r w) as [[[|g gs]|e] [r1 w1]]; try discriminate. destruct (w_derefs (g :: gs) w1) as [[l|e] w2]; [|discriminate].
  destruct (build_messages (r_step r1) (r_step2 r1) (r_change r1) l) as [m'|e] eqn:E; [|discriminate]. intro H. assert (m' = m) by congruence. subst. exact (build_nodup _ _ _ _ _ E).
Qed.
Lemma values_nodup ev x input e g m v m' c : exec_values ev x input e g m = Ok (v, m', c) -> NoDup (map fst (m_first m)) -> NoDup (map fst v).
Proof.
  unfold exec_values. intros H Hn. apply rbind_ok in H as ((cv & m1) & H1 & H). apply rbind_ok in H as ((vs & ch) & H2 & H).
  assert (N1 : NoDup (map fst (m_first m1))).
  { unfold convert_messages in H1. destruct (x_doConv x); [|now assert (m1 = m) as -> by congruence]. cbv zeta in H1. apply rbind_ok in H1 as (f & Hf & H1). apply rbind_ok in H1 as (s & _ & H1).
    assert (m_first m1 = f) as -> by (injection H1 as _ <-; reflexivity). now rewrite (convert_fields_keys _ _ _ _ Hf). }
  assert (N2 : NoDup (map fst vs)).
  { destruct (aggregate_inv _ _ _ _ _ _ _ H2) as (out1 & F1 & F2). assert (No : NoDup (map fst out1)) by (unfold first_fields in F1; destruct g as [g|]; [exact (manip_nodup _ _ _ F1)|now rewrite F1]).
    destruct (m_grid2 m1) as [[gr k]|]; [|destruct F2 as [-> _]; exact No]. destruct F2 as (a & _ & F2). destruct (x_doAggr x && (s_end k + a <? e)%Z)%bool; [|destruct F2 as [-> _]; exact No].
    destruct F2 as (g2 & out2 & c2 & _ & _ & _ & _ & ->). apply (NoDup_dupdate step_eqb step_eqb_iff); exact No. }
  assert (v = order_fields cv vs) as -> by congruence. unfold order_fields.
  apply (Permutation_NoDup (l := map fst vs)); [|exact N2]. symmetry. rewrite (Permutation_map fst (sort_by_perm _ _)). destruct cv as [cv|]; [|reflexivity]. destruct (cv_cut cv); [|reflexivity]. now rewrite cut_off_keys.
Qed.
Lemma values_sorted ev x input e g m v m' c : exec_values ev x input e g m = Ok (v, m', c) -> by_end v.
Proof. unfold exec_values. intro H. apply rbind_ok in H as ((cv & m1) & _ & H). apply rbind_ok in H as ((vs & ch) & _ & H). assert (v = order_fields cv vs) as -> by congruence. apply order_sorted. Qed.
Lemma second_first o x sel m s m' s' : second_file o x sel m s = (Ok m', s') -> m_first m' = m_first m.
Proof.
  unfold second_file. destruct (jtruthy (x_input2 x)); intro H; [|now apply ret_ok in H as [-> _]].
  apply bind_ok in H as (? & ? & _ & H). apply bind_ok in H as (m2 & ? & _ & H). cbv zeta in H. apply bind_ok in H as (? & ? & _ & H). apply bind_ok in H as (? & ? & _ & H). apply ret_ok in H as [-> _]. reflexivity.
Qed.
Lemma execute_keys o x s v m c s' : execute o x false s = (Ok (v, m, c), s') -> NoDup (map fst v) /\ by_end v.
Proof.
  intro H. unfold execute in H. apply bind_ok in H as ([[[input sel] e] g] & s1 & _ & H). apply bind_ok in H as (m1 & s2 & H1 & H). apply bind_ok in H as (m2 & s3 & H2 & H). apply bind_ok in H as (? & s4 & _ & H).
  apply bind_ok in H as ([[v' m'] c'] & s5 & Hv & H). apply lift_ok in Hv as [Hv _]. apply bind_ok in H as (? & s6 & _ & H). apply ret_ok in H as [H _].
  assert (v' = v) by congruence. subst v'. split; [|exact (values_sorted _ _ _ _ _ _ _ _ _ Hv)]. apply (values_nodup _ _ _ _ _ _ _ _ _ Hv). rewrite (second_first _ _ _ _ _ _ _ H2).
  apply on1_ok in H1 as (r & r' & w' & _ & H1 & _). exact (select_nodup _ _ _ _ _ H1).
Qed.

(** ** nothing is written before write_maps *)
Section Out.
  Context (o : ext) (x : ctx).
  Let P (s : cst) : Prop := c_out s = [].
  Let W {A} (r : res A) (s : cst) : Prop := P s.
  Ltac wkt := intros; assumption.
  Lemma out_on1 {A} (op : reader -> world -> res A * (reader * world)) : hoare P (on1 op) W.
  Proof. intros s H. unfold W, P, on1 in *. destruct (c_r1 s) as [r|]; [|exact H]. destruct (op r (c_w s)) as [y [r' w']]. exact H. Qed.
  Lemma out_on2 {A} (op : reader -> world -> res A * (reader * world)) : hoare P (on2 op) W.
  Proof. intros s H. unfold W, P, on2 in *. destruct (c_r2 s) as [r|]; [|exact H]. destruct (op r (c_w s)) as [y [r' w']]. exact H. Qed.
  Lemma out_execute : hoare P (execute o x false) W.
  Proof.
    unfold execute. apply (hoare_bind _ W); [| |wkt].
    { unfold init_execution. apply (hoare_bind _ W); [intros s H; unfold W, P, open1 in *; destruct (reader_new _ _ (c_w s)) as [[r|e] w]; exact H| |wkt]. intros [].
      apply (hoare_bind _ W); [apply hoare_lift; wkt| |wkt]. intro attrs. apply (hoare_bind _ W); [apply out_on1| |wkt]. intros [[i t] mv].
      apply (hoare_bind _ W); [intros s Hs; unfold make_writer; destruct (xt_writer o x mv); exact Hs| |wkt]. intros [].
      apply (hoare_bind _ W).
      { unfold look_for_geopotential. destruct (x_doCorr x); [|apply hoare_ret; wkt]. apply (hoare_bind _ W); [apply out_on1| |wkt]. intros b s Hs. exact Hs. }
      2: wkt. intros []. apply (hoare_bind _ W); [apply hoare_lift; wkt| |wkt]. intros [[s e] g]. apply (hoare_bind _ W); [apply hoare_lift; wkt| |wkt]. intro sel. apply hoare_ret. wkt. }
    intros [[[input sel] e] g]. apply (hoare_bind _ W); [apply out_on1| |wkt]. intro m.
    apply (hoare_bind _ W).
    { unfold second_file. destruct (jtruthy (x_input2 x)); [|apply hoare_ret; wkt]. apply (hoare_bind _ W); [intros s H; unfold W, P, open2 in *; destruct (reader_new _ _ (c_w s)) as [[r|e0] w]; exact H| |wkt]. intros [].
      apply (hoare_bind _ W); [apply out_on2| |wkt]. intro m2. apply (hoare_bind _ W); [apply out_on2| |wkt]. intro g2. apply (hoare_bind _ W); [apply out_on1| |wkt]. intros []. apply hoare_ret. wkt. }
    2: wkt. intro m'. apply (hoare_bind _ W); [apply out_on1| |wkt]. intro a. apply (hoare_bind _ W); [apply hoare_lift; wkt| |wkt]. intros [[v m2] ch].
    apply (hoare_bind _ W); [apply hoare_ret; wkt| |wkt]. intros []. apply hoare_ret. wkt.
  Qed.
End Out.
Lemma execute_no_out o x w r s : execute o x false (cst0 w) = (r, s) -> c_out s = [].
Proof. intro H. pose proof (out_execute o x (cst0 w) eq_refl) as K. now rewrite H in K. Qed.

(** writing comes last *)
Lemma execute_split o x s : execute o x true s =
  match execute o x false s with
  | (Ok (v, m, c), s') => match write_maps o x v m c s' with (Ok _, s'') => (Ok (v, m, c), s'') | (Raise e, s'') => (Raise e, s'') end
  | (Raise e, s') => (Raise e, s')
  end.
Proof.
  unfold execute, bind, ret. destruct (init_execution o x s) as [[[[[input sel] e] g]|er] s1]; [|reflexivity]. destruct (on1 (select_messages sel) s1) as [[m|er] s2]; [|reflexivity].
  destruct (second_file o x sel m s2) as [[m'|er] s3]; [|reflexivity]. destruct (on1 intertable_gids s3) as [[u|er] s4]; [|reflexivity]. unfold lift.
  destruct (exec_values (xt_numexpr o) x input e g m') as [[[v m2] c]|er]; [|reflexivity]. reflexivity.
Qed.
(** only files, writer and numexpr matter before that *)
Lemma execute_ext o1 o2 x s : (forall j, xt_file o2 j = xt_file o1 j) -> (forall mv, xt_writer o2 x mv = xt_writer o1 x mv) -> xt_numexpr o2 = xt_numexpr o1 ->
  execute o2 x false s = execute o1 x false s.
Proof.
  intros H1 H2 H3. unfold execute, init_execution, second_file, make_writer, bind, ret, lift. rewrite !H1, H3.
  destruct (open1 (xt_file o1 (x_input x)) (negb (is_null (x_member x))) s) as [[u|e] s1]; [|reflexivity]. destruct (select_cmd_attrs x) as [at_|e]; [|reflexivity].
  destruct (on1 (get_grib_info at_) s1) as [[[[i t] mv]|e] s2]; [|reflexivity]. rewrite H2. destruct (xt_writer o1 x mv); [|reflexivity]. reflexivity.
Qed.
