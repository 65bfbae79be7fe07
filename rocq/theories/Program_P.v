(** * Program_P: where an execution can find no messages, and what it has written
    until then (C93) *)
From Verif Require Import Base Num PyStr Strings Config Context Aggregator Converter Reader Controller Spec_Controller Spec_Reader Spec_Context Spec_Flow Spec_Program
  Base_P PyStr_P Aggregator_P6 Reader_P Reader_P2 Reader_P3 Reader_P4 Controller_P2 Controller_P3 Controller_P4 Flow_P.
From Coq Require Import Permutation.
Local Open Scope string_scope.

(** ** No application error in the computations *)
Lemma na_kint m k : noapp (kint m k). Proof. intro c. unfold kint. destruct (dget _ _ _) as [[]|]; discriminate. Qed.
Lemma na_kstr m k : noapp (kstr m k). Proof. intro c. unfold kstr. destruct (dget _ _ _) as [[]|]; discriminate. Qed.
Lemma na_kdbl m k : noapp (kdbl m k). Proof. intro c. unfold kdbl. destruct (dget _ _ _); discriminate. Qed.
Lemma na_grid g m : noapp (grid_details g m).
Proof.
  unfold grid_details. apply noapp_bind; [|intro; apply noapp_ok]. intro c. unfold build_id. destruct (dget String.eqb (gm_dbl m) "longitudeOfFirstGridPointInDegrees"); [|discriminate].
  destruct (key_missing m "longitudeOfLastGridPointInDegrees"); cbn [rbind]; [discriminate|]. destruct (dget _ _ _); discriminate.
Qed.
Lemma na_field m : noapp (msg_field m).
Proof. unfold msg_field. apply noapp_bind; [apply na_kint|]. intros b c. destruct (b =? 0)%Z; [discriminate|]. destruct (Nat.eqb _ _); discriminate. Qed.
Lemma na_body s2 ch main st gm : noapp (select_body s2 ch main st gm).
Proof.
  destruct gm as [g m]. unfold select_body. do 4 (apply noapp_bind; [apply na_kint|intro]). apply noapp_bind.
  - destruct (other_nj _ _); [|apply noapp_ok]. apply noapp_bind; [apply na_grid|intro; apply noapp_ok].
  - intro g2. apply noapp_bind; [apply na_field|]. intro v. destruct g2; [|apply noapp_ok]. destruct (other_nj _ _); apply noapp_ok.
Qed.
Lemma na_date d t : noapp (ref_date d t).
Proof. intro c. unfold ref_date, strptime. destruct (flat_map _ _) as [|[x [|]] ?]; try discriminate. destruct (_ && _)%bool; discriminate. Qed.
Lemma na_first v : noapp (first_by_end v). Proof. intro c. unfold first_by_end. destruct (sort_by _ _); discriminate. Qed.
Lemma build_na step step2 ch ms : ms <> [] -> noapp (build_messages step step2 ch ms).
Proof.
  intro H. destruct ms as [|[g0 m0] ms]; [contradiction|]. unfold build_messages.
  apply noapp_bind; [apply na_grid|intro main]. do 2 (apply noapp_bind; [apply na_kstr|intro]). do 2 (apply noapp_bind; [apply na_kstr|intro]).
  apply noapp_bind; [apply na_kdbl|intro]. do 2 (apply noapp_bind; [apply na_kint|intro]).
  apply noapp_bind; [apply noapp_foldM; intros; apply na_body|intro st].
  apply noapp_bind.
  - destruct (ss_grid2 st); [|apply noapp_ok]. apply noapp_bind; [|intro; apply noapp_ok]. intro c. unfold min_step. destruct (dkeys _); discriminate.
  - intro g2. apply noapp_bind; [apply na_date|intro]. apply noapp_bind; [apply na_first|intro; apply noapp_ok].
Qed.

Lemma no3_bind {A B} (x : res A) (f : A -> res B) : no3 x -> (forall a, no3 (f a)) -> no3 (rbind x f).
Proof. intros Hx Hf. destruct x as [a|e]; cbn [rbind]; [apply Hf|]. intro E. apply Hx. congruence. Qed.
Lemma no3_na {A} (r : res A) : noapp r -> no3 r. Proof. intros H. apply H. Qed.
Lemma no3_raise {A B} e : no3 (Raise e : res A) -> no3 (Raise e : res B). Proof. intros H E. apply H. congruence. Qed.
Lemma na_first_entry (v : fields) : noapp (first_entry v). Proof. intro c. unfold first_entry. destruct v; discriminate. Qed.
Lemma na_mapM {A B} (f : A -> res B) l : (forall a, noapp (f a)) -> noapp (mapM f l).
Proof. intro H. induction l as [|a l IH]; cbn [mapM]; [apply noapp_ok|]. apply noapp_bind; [apply H|intro]. apply noapp_bind; [exact IH|intro; apply noapp_ok]. Qed.
Lemma no3_manipulation g v : no3 (do_manipulation g v).
Proof.
  unfold do_manipulation. destruct (String.eqb (a_type g) "accumulation"); [|destruct (String.eqb (a_type g) "average"); [|destruct (String.eqb (a_type g) "instantaneous")]].
  - apply no3_na. unfold accumulation, accumulation_run. apply noapp_bind; [|auto with na]. apply noapp_bind; [destruct v; [intro; discriminate|apply noapp_ok]|].
    intros [k0 a0]. apply noapp_bind; [auto with na|]. intro. apply noapp_foldM. intros. apply noapp_acc_body.
  - unfold average. destruct (String.eqb _ _); [discriminate|]. apply no3_na. apply noapp_bind; [apply na_first_entry|]. intros [k0 a0].
    destruct (avg_bounds g). apply noapp_bind; [auto with na|]. intro. apply noapp_foldM. intros out it. unfold avg_body.
    apply noapp_bind; [|intros [? ?]; apply noapp_ok].
    destruct (a_half g).
    + unfold avg_half. apply noapp_bind; [auto with na|]. intro. destruct (0 <? _)%Z; [|apply noapp_ok]. apply noapp_foldM. intros [? ?] t. unfold avg_half_body.
      destruct (dget _ _ _); [|apply noapp_ok]. apply noapp_bind; auto with na.
    + unfold avg_plain. apply noapp_bind; [auto with na|]. intro. apply noapp_foldM. intros [? ?] t. unfold avg_plain_body. apply noapp_bind.
      * destruct (zmem _ _); [auto with na|]. apply noapp_bind; auto with na.
      * intro. apply noapp_bind; auto with na.
  - unfold instantaneous. destruct (String.eqb _ _); [discriminate|]. apply no3_na. apply noapp_bind; [apply na_first_entry|]. intros [k0 a0].
    apply noapp_bind; [auto with na|]. intro. apply noapp_foldM. intros out it. unfold inst_body.
    apply noapp_bind; [|intro; apply noapp_ok]. destruct (zmem _ _); [apply noapp_bind; auto with na|]. destruct (_ =? 0)%Z; [apply noapp_ok|].
    apply noapp_bind; [auto with na|]. intro. apply noapp_bind; auto with na.
  - discriminate.
Qed.
Lemma na_jint j : noapp (jint j). Proof. intros c H. destruct (jint_exn _ _ H); discriminate. Qed.
Lemma na_convert ev c xs : noapp (convert_fields ev c xs).
Proof.
  unfold convert_fields. apply na_mapM. intros [k a]. apply noapp_bind; [|intro; apply noapp_ok]. intro d. unfold convert.
  destruct (cv_func c) as [f|]; [|discriminate]. destruct (String.eqb f ""); [discriminate|]. destruct (String.eqb f "x=x"); [discriminate|]. destruct (ev _); discriminate.
Qed.
Lemma na_new_aggr x i t s e : noapp (new_aggr x i t s e).
Proof. unfold new_aggr. do 2 (apply noapp_bind; [apply na_jint|intro]). apply noapp_ok. Qed.
Lemma no3_values ev x input e g m : no3 (exec_values ev x input e g m).
Proof.
  unfold exec_values. apply no3_bind.
  - apply no3_na. unfold convert_messages. destruct (x_doConv x); [|apply noapp_ok]. do 2 (apply noapp_bind; [apply na_convert|intro]). apply noapp_ok.
  - intros [c m']. apply no3_bind; [|intros [? ?]; discriminate]. unfold aggregate. apply no3_bind; [destruct g; [apply no3_manipulation|discriminate]|].
    intro v. destruct (m_grid2 m') as [[? k]|]; [|discriminate]. apply no3_bind; [apply no3_na, na_jint|intro st].
    destruct (_ && _)%bool; [|discriminate]. apply no3_bind; [|intros [? ?]; discriminate]. unfold second_res.
    apply no3_bind; [apply no3_na, na_new_aggr|intro]. apply no3_bind; [apply no3_manipulation|intro]. apply no3_bind; [apply no3_na, na_first|discriminate].
Qed.
Lemma na_range x i t : noapp (choose_range x i t).
Proof.
  assert (N : forall j d, noapp (or_int j d)) by (intros j d c; unfold or_int; destruct j; try discriminate; destruct (_ =? 0)%Z; discriminate).
  unfold choose_range. do 2 (apply noapp_bind; [apply N|intro]). destruct (x_doAggr x); [|apply noapp_ok].
  apply noapp_bind; [apply na_new_aggr|]. intro g. destruct (real_start_end g). apply noapp_ok.
Qed.

(** ** No messages: nothing in the file is accepted *)
Lemma gids_no3 sel r w wp names x r' w' : good_world w -> r_index r = Some wp -> sel_names sel = Ok (map JStr names) -> typed_pert sel ->
  get_gids sel r w = (x, (r', w')) -> x <> Raise (AppExc 3000).
Proof.
  intros Hw Hi Hn Hty H ->. unfold get_gids in H.
  assert (NV : forall sel0 r0 w0 y rw, good_world w0 -> r_index r0 = Some wp -> (sel_names sel0 = Ok (map JStr names)) -> typed_pert sel0 ->
     scan_grib sel0 r0 w0 = (y, rw) -> no_value_error y <> Raise (AppExc 3000)).
  { intros sel0 r0 w0 y rw G I N T S E. unfold scan_grib in S. rewrite N, I in S.
    destruct (scan_names sel0 wp (r_msgs r0) (map JStr names) w0) as [z w1] eqn:Z. assert (y = z) by congruence. subst z.
    destruct y as [gs|ex]; [discriminate|]. destruct (scan_names_raise _ _ _ _ _ _ _ G Z) as (_ & V & B).
    destruct ex; try discriminate; cbn [no_value_error] in E.
    - destruct B as [B|[B|[B|B]]]; discriminate.
    - destruct (V eq_refl) as [_ P]. unfold sel_pert in P. destruct (dget String.eqb sel0 "perturbationNumber") as [v|] eqn:D; [|discriminate].
      destruct (T v D) as (zz & ->). destruct (jeq _ _); discriminate. }
  destruct (scan_grib sel r w) as [y [r1 w1]] eqn:Es. pose proof (NV _ _ _ _ _ Hw Hi Hn Hty Es) as N1.
  destruct y as [[|g gs]|e]; [|cbn in H; discriminate|congruence].
  destruct (retry_sel sel) as [sel'|] eqn:Er; [|discriminate].
  destruct (scan_grib_spec _ _ _ _ _ _ Hw Es) as [Sc (ms & _ & _ & Ho & _)]. destruct (scan_grib sel' r1 w1) as [z rw] eqn:Es2.
  destruct (retry_names _ _ Er) as (E1 & _ & E3).
  assert (Hi1 : r_index r1 = Some wp) by (destruct Sc as (_ & _ & _ & _ & _ & _ & E & _); congruence).
  assert (T2 : typed_pert sel') by (intros v Hv; apply Hty; congruence).
  apply (NV sel' r1 w1 z rw (opened_good _ _ _ Hw Ho) Hi1 (eq_trans E1 Hn) T2 Es2). congruence.
Qed.
Lemma effective_none sel file sel' : effective_sel sel file sel' -> filter (accepted sel') file = [] -> Forall (fun m => accepted sel m = false) file.
Proof.
  intros He Hf. assert (E : existsb (accepted sel) file = false).
  { destruct He as [[-> [E|E]]|[E _]]; auto; rewrite existsb_filter, Hf in *; auto. }
  apply Forall_forall. intros m Hm. destruct (accepted sel m) eqn:A; auto. rewrite <- E. symmetry. apply existsb_exists. eauto.
Qed.
Lemma derefs_na gs : forall w x w', w_derefs gs w = (x, w') -> noapp x.
Proof.
  induction gs as [|g gs IH]; cbn [w_derefs]; intros w x w' H; [assert (x = Ok []) by congruence; subst; apply noapp_ok|].
  unfold w_deref in H. destruct (dget Z.eqb (w_live w) g); [|assert (x = Raise OtherError) by congruence; subst; intro; discriminate].
  destruct (w_derefs gs w) as [[l|e] w1] eqn:E; [assert (x = Ok ((g, g0) :: l)) by congruence; subst; apply noapp_ok|].
  assert (x = Raise e) by congruence. subst. intros c Hc. apply (IH _ _ _ E c). congruence.
Qed.
Lemma select_none sel r w wp names r' w' : good_world w -> r_index r = Some wp -> sel_names sel = Ok (map JStr names) -> NoDup names -> typed_pert sel ->
  select_messages sel r w = (Raise (AppExc 3000), (r', w')) -> Forall (fun m => accepted sel m = false) (r_msgs r).
Proof.
  intros Hw Hi Hn Hnd Hty H. unfold select_messages in H. destruct (get_gids sel r w) as [y [r1 w1]] eqn:Eg.
  pose proof (gids_no3 _ _ _ _ _ _ _ _ Hw Hi Hn Hty Eg) as N. destruct y as [[|g gs]|e]; [|exfalso|congruence].
  - destruct (gids_selected _ _ _ _ _ _ _ _ Hw Hi Hn Hnd Hty Eg) as (ms & sel' & He & Hp & Hl & _). apply (effective_none _ _ _ He).
    destruct ms; [|discriminate]. now apply Permutation_nil in Hp.
  - destruct (gids_selected _ _ _ _ _ _ _ _ Hw Hi Hn Hnd Hty Eg) as (ms & sel' & He & Hp & Hl & Ho & _).
    rewrite (opened_derefs _ _ _ _ Hw Hl Ho) in H.
    destruct (build_messages (r_step r1) (r_step2 r1) (r_change r1) (combine (g :: gs) ms)) eqn:B; [discriminate|].
    assert (Ne : combine (g :: gs) ms <> []) by (destruct ms; discriminate). apply (build_na (r_step r1) (r_step2 r1) (r_change r1) _ Ne 3000%Z). rewrite B. congruence.
Qed.
Lemma info_none sel r w wp names r' w' : good_world w -> r_index r = Some wp -> sel_names sel = Ok (map JStr names) -> NoDup names -> typed_pert sel ->
  get_grib_info sel r w = (Raise (AppExc 3000), (r', w')) -> Forall (fun m => accepted sel m = false) (r_msgs r).
Proof.
  intros Hw Hi Hn Hnd Hty H. unfold get_grib_info in H. destruct (get_gids sel r w) as [y [r1 w1]] eqn:Eg.
  pose proof (gids_no3 _ _ _ _ _ _ _ _ Hw Hi Hn Hty Eg) as N. destruct y as [[|g gs]|e]; [|exfalso|congruence].
  - destruct (gids_selected _ _ _ _ _ _ _ _ Hw Hi Hn Hnd Hty Eg) as (ms & sel' & He & Hp & Hl & _). apply (effective_none _ _ _ He).
    destruct ms; [|discriminate]. now apply Permutation_nil in Hp.
  - destruct (gids_selected _ _ _ _ _ _ _ _ Hw Hi Hn Hnd Hty Eg) as (ms & sel' & He & Hp & Hl & Ho & _).
    rewrite (opened_derefs _ _ _ _ Hw Hl Ho) in H.
    destruct (info_of (combine (g :: gs) ms)) as [[[? ?] ?]|e] eqn:B; [discriminate|].
    assert (Ne : combine (g :: gs) ms <> []) by (destruct ms; discriminate). apply (info_of_noapp _ 3000%Z Ne). rewrite B. congruence.
Qed.

(** ** What has been written *)
Lemma bind_raise {A B} (x : M A) (f : A -> M B) s e s' : bind x f s = (Raise e, s') -> x s = (Raise e, s') \/ exists a s1, x s = (Ok a, s1) /\ f a s1 = (Raise e, s').
Proof. unfold bind. destruct (x s) as [[a|e0] s1]; intro H; [right; eauto|left; congruence]. Qed.
Definition keep {A} (x : M A) : Prop := forall s, c_out (snd (x s)) = c_out s.
Lemma keep_bind {A B} (x : M A) (f : A -> M B) : keep x -> (forall a, keep (f a)) -> keep (bind x f).
Proof. intros Hx Hf s. unfold bind. specialize (Hx s). destruct (x s) as [[a|e] s1]; cbn [snd] in *; [|exact Hx]. now rewrite Hf. Qed.
Lemma keep_ret {A} (a : A) : keep (ret a). Proof. intro s. reflexivity. Qed.
Lemma keep_lift {A} (r : res A) : keep (lift r). Proof. intro s. reflexivity. Qed.
Lemma keep_on1 {A} (op : reader -> world -> res A * (reader * world)) : keep (on1 op).
Proof. intro s. unfold on1. destruct (c_r1 s); [|reflexivity]. destruct (op _ _) as [? [? ?]]. reflexivity. Qed.
Lemma keep_on2 {A} (op : reader -> world -> res A * (reader * world)) : keep (on2 op).
Proof. intro s. unfold on2. destruct (c_r2 s); [|reflexivity]. destruct (op _ _) as [? [? ?]]. reflexivity. Qed.
Lemma keep_open1 f b : keep (open1 f b). Proof. intro s. unfold open1. destruct (reader_new f b (c_w s)) as [[|] ?]; reflexivity. Qed.
Lemma keep_open2 f b : keep (open2 f b). Proof. intro s. unfold open2. destruct (reader_new f b (c_w s)) as [[|] ?]; reflexivity. Qed.
Lemma keep_writer o x mv : keep (make_writer o x mv). Proof. intro s. unfold make_writer. destruct (xt_writer _ _ _); reflexivity. Qed.
Lemma keep_look x : keep (look_for_geopotential x).
Proof. unfold look_for_geopotential. destruct (x_doCorr x); [|apply keep_ret]. apply keep_bind; [apply keep_on1|]. intros b s. reflexivity. Qed.
Lemma keep_init o x : keep (init_execution o x).
Proof.
  unfold init_execution. apply keep_bind; [apply keep_open1|intro]. apply keep_bind; [apply keep_lift|intro]. apply keep_bind; [apply keep_on1|intros [[? ?] ?]].
  apply keep_bind; [apply keep_writer|intro]. apply keep_bind; [apply keep_look|intro]. apply keep_bind; [apply keep_lift|intros [[? ?] ?]]. apply keep_bind; [apply keep_lift|intro]. apply keep_ret.
Qed.
Lemma keep_second o x sel m : keep (second_file o x sel m).
Proof.
  unfold second_file. destruct (jtruthy _); [|apply keep_ret]. apply keep_bind; [apply keep_open2|intro]. apply keep_bind; [apply keep_on2|intro].
  apply keep_bind; [apply keep_on2|intro]. apply keep_bind; [apply keep_on1|intro]. apply keep_ret.
Qed.
Lemma keep_close : keep ctl_close.
Proof.
  unfold ctl_close. apply keep_bind; [|intro; apply keep_bind; [|intro]]; intro s.
  - destruct (c_r1 s); [|reflexivity]. destruct (close _ _) as [[|] [? ?]]; reflexivity.
  - destruct (c_r2 s); [|reflexivity]. destruct (close _ _) as [[|] [? ?]]; reflexivity.
  - destruct (c_wr s) as [[[] []]|]; reflexivity.
Qed.

Lemma one_map_no3 o m ch b i kv : quiet o -> no3 (one_map o m ch b i kv).
Proof. intros (_ & Q & _). unfold one_map. apply no3_bind; [apply Q|discriminate]. Qed.
Lemma pcr_no3 o m ch vals : quiet o -> forall b i, no3 (snd (pcr_loop o m ch b i vals)).
Proof.
  intro Q. induction vals as [|kv vals IH]; intros b i; cbn [pcr_loop]; [discriminate|].
  pose proof (one_map_no3 o m ch b i kv Q) as N. destruct (one_map o m ch b i kv) as [[b' w]|e]; [|exact (no3_raise e N)].
  destruct Q as (_ & _ & Qp & _). specialize (Qp w). destruct (xt_put o w) as [u|e]; [|exact (no3_raise e Qp)]. specialize (IH b' (i + 1)%Z). destruct (pcr_loop o m ch b' (i + 1) vals). exact IH.
Qed.
Lemma nc_no3 o m ch vals : quiet o -> forall b i, no3 (nc_loop o m ch b i vals).
Proof.
  intro Q. induction vals as [|kv vals IH]; intros b i; cbn [nc_loop]; [discriminate|].
  apply no3_bind; [now apply one_map_no3|]. intros [b' w]. apply no3_bind; [apply IH|discriminate].
Qed.
Lemma write_no3 o x vals m ch s : quiet o -> no3 (fst (write_maps o x vals m ch s)).
Proof.
  intro Q. unfold write_maps. destruct (pcraster x).
  - pose proof (pcr_no3 o m ch vals Q false 1%Z) as N. destruct (pcr_loop o m ch false 1 vals). exact N.
  - destruct (jis _ _); [|discriminate]. pose proof (nc_no3 o m ch vals Q false 0%Z) as N. destruct (nc_loop o m ch false 0 vals) as [ws|e]; [|exact (no3_raise e N)].
    destruct Q as (_ & _ & _ & Qo & Qw). destruct (xt_nc_open o) as [u|e]; [|exact (no3_raise e Qo)]. specialize (Qw ws). destruct (xt_nc_write o ws) as [u'|e]; [discriminate|exact (no3_raise e Qw)].
Qed.

(** ** An execution that finds no messages *)
Lemma on1_raise {A} (op : reader -> world -> res A * (reader * world)) s e s' r : on1 op s = (Raise e, s') -> c_r1 s = Some r ->
  exists r' w', op r (c_w s) = (Raise e, (r', w')).
Proof. unfold on1. intros H E. rewrite E in H. destruct (op r (c_w s)) as [y [r' w']]. exists r', w'. congruence. Qed.
Lemma not_accepted_wanted x nm s e sel f : usable_request x nm -> usable_file f -> select_cmd x s e = Ok sel ->
  Forall (fun m => accepted sel m = false) (gf_msgs f) -> Forall (fun m => ~ wanted_message x nm s e m) (gf_msgs f).
Proof.
  intros U Hf Hs F. rewrite Forall_forall in *. intros m Hm W. apply (accepted_wanted x nm U s e sel f m Hf Hm Hs) in W. rewrite (F m Hm) in W. discriminate.
Qed.
Lemma execute_none o x w s' : quiet o -> good_world w -> execute o x true (cst0 w) = (Raise (AppExc 3000), s') ->
  c_out s' = [] /\ forall nm f, usable_request x nm -> xt_file o (x_input x) = Some f -> usable_file f -> nothing_to_read o x nm f.
Proof.
  intros Q Hw H. split.
  - unfold execute in H. apply bind_raise in H as [H|([[[input sel] e] g] & s1 & H1 & H)].
    { pose proof (keep_init o x (cst0 w)) as K. rewrite H in K. exact K. }
    pose proof (keep_init o x (cst0 w)) as K. rewrite H1 in K. cbn [snd] in K. change (c_out (cst0 w)) with (@nil written) in K.
    apply bind_raise in H as [H|(m & s2 & H2 & H)]; [pose proof (keep_on1 (select_messages sel) s1) as K2; rewrite H in K2; cbn [snd] in K2; congruence|].
    pose proof (keep_on1 (select_messages sel) s1) as K2. rewrite H2 in K2. cbn [snd] in K2.
    apply bind_raise in H as [H|(m' & s3 & H3 & H)]; [pose proof (keep_second o x sel m s2) as K3; rewrite H in K3; cbn [snd] in K3; congruence|].
    pose proof (keep_second o x sel m s2) as K3. rewrite H3 in K3. cbn [snd] in K3.
    apply bind_raise in H as [H|(u & s4 & H4 & H)]; [pose proof (keep_on1 intertable_gids s3) as K4; rewrite H in K4; cbn [snd] in K4; congruence|].
    pose proof (keep_on1 intertable_gids s3) as K4. rewrite H4 in K4. cbn [snd] in K4.
    apply bind_raise in H as [H|([[v mm] ch] & s5 & H5 & H)]; [unfold lift in H; congruence|]. apply lift_ok in H5 as [_ ->].
    apply bind_raise in H as [H|(u' & s6 & H6 & H)]; [|discriminate].
    pose proof (write_no3 o x v mm ch s4 Q) as N. rewrite H in N. now elim N.
  - intros nm f U Hx Hf. unfold execute in H.
    apply bind_raise in H as [H|([[[input sel] e] g] & s1 & Hi & H)].
    + unfold init_execution in H. apply bind_raise in H as [H|([] & s2 & Ho & H)].
      { unfold open1 in H. rewrite Hx in H. destruct (reader_new (Some f) (negb (is_null (x_member x))) (c_w (cst0 w))) as [y w'] eqn:E.
        destruct (reader_new_fresh _ _ _ _ _ Hf E Hw) as (r & -> & _). discriminate. }
      destruct (open1_ok o f _ _ _ _ Hx Ho Hf Hw) as (r & R1 & F1 & I1 & O1). clear Ho.
      apply bind_raise in H as [H|(attrs & s3 & Ha & H)]; [unfold lift, select_cmd_attrs in H; destruct (x_short x); discriminate|]. apply lift_ok in Ha as [Ha ->].
      apply bind_raise in H as [H|([[i t] mv] & s3 & Hg & H)].
      { destruct (on1_raise _ _ _ _ _ H R1) as (r' & w' & Hg). left. destruct (attrs_ok x nm U _ Ha) as (N1 & N2 & N3 & _).
        destruct F1 as [[wp Ei] Em]. pose proof (info_none _ _ _ _ _ _ _ (proj1 I1) Ei N1 N2 N3 Hg) as F. rewrite Em in F.
        rewrite Forall_forall in *. intros m Hm W. apply (accepted_variable x nm U _ m Ha) in W. rewrite (F m Hm) in W. discriminate. }
      apply bind_raise in H as [H|(u4 & s4 & Hm & H)].
      { unfold make_writer in H. destruct Q as (Qw & _). specialize (Qw x mv). destruct (xt_writer o x mv); [discriminate|]. exfalso. apply Qw. congruence. }
      apply bind_raise in H as [H|(u5 & s5 & Hl & H)].
      { unfold look_for_geopotential in H. destruct (x_doCorr x); [|discriminate]. apply bind_raise in H as [H|(b & s5 & _ & H)]; [|discriminate].
        unfold on1 in H. destruct (c_r1 s4) as [rr|]; [|discriminate]. unfold has_geopotential in H. destruct (r_index rr), (r_file rr); discriminate. }
      apply bind_raise in H as [H|([[s e'] g'] & s6 & Hc & H)].
      { unfold lift in H. exfalso. apply (na_range x i t 3000%Z). congruence. }
      apply bind_raise in H as [H|(sel' & s7 & Hs & H)]; [unfold lift, select_cmd in H; destruct (x_short x); discriminate|discriminate].
    + unfold init_execution in Hi. apply bind_ok in Hi as ([] & s2 & Ho & Hi).
      destruct (open1_ok o f _ _ _ _ Hx Ho Hf Hw) as (r & R1 & F1 & I1 & O1). clear Ho.
      apply bind_ok in Hi as (attrs & s3 & Ha & Hi). apply lift_ok in Ha as [Ha ->].
      apply bind_ok in Hi as ([[i t] mv] & s3 & Hg & Hi). apply on1_ok in Hg as (r0 & r2 & w2 & E0 & Hg & E1 & E2 & E3 & E4).
      assert (r0 = r) by congruence. subst r0.
      destruct (info_range x nm U _ f _ _ _ _ _ _ _ (proj1 I1) Hf F1 Ha Hg) as (Fr & _).
      destruct (info_keeps _ _ _ _ _ _ _ _ _ _ _ _ I1 F1 Hg) as [F2 I2]. rewrite <- E2 in I2.
      apply bind_ok in Hi as (u4 & s4 & Hm & Hi). apply make_writer_ok in Hm as (M1 & _ & M3 & M4).
      apply bind_ok in Hi as (u5 & s5 & Hl & Hi).
      assert (E1' : c_r1 s4 = Some r2) by congruence. rewrite <- M3 in I2.
      destruct (look_ok _ _ _ _ _ _ _ _ _ _ _ Hl E1' F2 I2) as (L1 & L2 & L3).
      apply bind_ok in Hi as ([[s e'] g'] & s6 & Hc & Hi). apply lift_ok in Hc as [Hc ->].
      apply bind_ok in Hi as (sel' & s6 & Hs & Hi). apply lift_ok in Hs as [Hs ->].
      apply ret_ok in Hi as [Hi ->]. assert (Ei : sel = sel' /\ e = e') by (split; congruence). destruct Ei as (-> & ->). clear Hi.
      right. exists i, t, s, e', g'. split; [exact Fr|]. split; [exact Hc|].
      destruct (names_ok x nm U _ _ _ Hs) as (N1 & N2 & N3).
      apply bind_raise in H as [H|(m1 & s7 & Hsel & H)].
      { left. destruct (on1_raise _ _ _ _ _ H L1) as (r' & w' & Hsel). destruct F2 as [[wp Ei] Em].
        pose proof (select_none _ _ _ _ _ _ _ (proj1 L2) Ei N1 N2 N3 Hsel) as F. rewrite Em in F. exact (not_accepted_wanted x nm s e' sel' f U Hf Hs F). }
      right. apply on1_ok in Hsel as (r0 & r3 & w3 & E5 & Hsel & E6 & E7 & E8 & E9). assert (r0 = r2) by congruence. subst r0.
      assert (W3 : good_world (c_w s7)).
      { destruct (select_step _ _ _ _ _ _ _ _ _ _ L2 Hsel ltac:(discriminate)) as (l & [G _] & _). now rewrite E7. }
      apply bind_raise in H as [H|(m & s8 & H2 & H)].
      * unfold second_file in H. destruct (jtruthy (x_input2 x)); [|discriminate]. split; [reflexivity|]. intros f2 Hx2 Hf2.
        apply bind_raise in H as [H|([] & t1 & Ho & H)].
        { unfold open2 in H. rewrite Hx2 in H. destruct (reader_new (Some f2) (negb (is_null (x_member x))) (c_w s7)) as [y w'] eqn:E.
          destruct (reader_new_fresh _ _ _ _ _ Hf2 E W3) as (r4 & -> & _). discriminate. }
        destruct (open2_ok o f2 _ _ _ _ Hx2 Ho Hf2 W3) as (r6 & V1 & V2 & V3 & _).
        apply bind_raise in H as [H|(m2 & t2 & Hs2 & H)].
        { unfold on2 in H. rewrite V1 in H. destruct (select_messages sel' r6 (c_w t1)) as [y [r7 w7]] eqn:Es2. assert (y = Raise (AppExc 3000)) by congruence. subst y.
          destruct V2 as [[wp Ei] Em]. pose proof (select_none _ _ _ _ _ _ _ V3 Ei N1 N2 N3 Es2) as F. rewrite Em in F. exact (not_accepted_wanted x nm s e' sel' f2 U Hf2 Hs F). }
        apply bind_raise in H as [H|(g2 & t3 & Hg2 & H)]; [unfold on2, get_main in H; destruct (c_r2 t2); discriminate|].
        apply bind_raise in H as [H|(u & t4 & Hg3 & H)]; [unfold on1, set_ext in H; destruct (c_r1 t3); discriminate|discriminate].
      * exfalso. apply bind_raise in H as [H|(aux & s9 & Hx9 & H)].
        { unfold on1 in H. destruct (c_r1 s8) as [rr|]; [|discriminate]. unfold intertable_gids, w_deref in H. destruct (r_main rr) as [g1|]; [|discriminate].
          destruct (dget Z.eqb (w_live (c_w s8)) g1); [|discriminate]. destruct (r_ext rr) as [g2|]; [|discriminate]. destruct (dget Z.eqb (w_live (c_w s8)) g2); discriminate. }
        apply bind_raise in H as [H|([[v mm] ch] & s10 & He & H)]; [unfold lift in H; apply (no3_values (xt_numexpr o) x input e' g m); congruence|]. apply lift_ok in He as [_ ->].
        apply bind_raise in H as [H|(u & s11 & Hwr & H)]; [|discriminate]. pose proof (write_no3 o x v mm ch s9 Q) as N. rewrite H in N. now elim N.
Qed.
