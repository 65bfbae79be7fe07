(** * Sim_P7: resources of sequences of commands and API calls (for C99). *)
From Verif Require Import Base Base_P Num PyStr Strings Config Context Aggregator Converter Reader Spec_Reader Reader_P Reader_P2 Reader_P3 Controller Spec_Controller Controller_P3 Controller_P4 Controller_P5 Writers Api Spec_Api Sim_P2.
From Coq Require Import Lia.
Local Open Scope string_scope.

Lemma good_release g w : good_world w -> good_world (w_release g w).
Proof.
  intros [G1 G2]. unfold w_release. destruct (dmem Z.eqb (w_live w) g); [|split; assumption]. split; cbn [w_live w_next]; [now apply ddel_fst|].
  apply Forall_forall. intros y Hy. apply ddel_sub in Hy. rewrite Forall_forall in G2. now apply G2.
Qed.
Lemma good_releases gs : forall w, good_world w -> good_world (w_releases gs w).
Proof. induction gs as [|g gs IH]; intros w H; [exact H|]. cbn [w_releases fold_left]. apply IH. now apply good_release. Qed.
Lemma good_close r w : good_world w -> good_world (snd (snd (close r w))).
Proof.
  intro H. unfold close. destruct (r_sel r) as [gs|]; [|exact H]. pose proof (good_releases gs w H) as G. destruct (r_index r), (r_file r); exact G.
Qed.
Lemma good_sinv w0 s : sinv w0 s -> good_world (c_w s).
Proof.
  intros [[w1 (E & _ & _ & G & _)]|[(r & l & _ & _ & G & _)|(r1 & r2 & l1 & l2 & _ & _ & _ & _ & G & _)]]; [now rewrite E|exact G|exact G].
Qed.

(** ** readers of an execution *)
Definition one_of (r : option reader) : nat := (idx r + fil r)%nat.
Section Readers.
  Context (o : ext) (x : ctx).
  (** the first reader is there, the second one is there or not *)
  Definition Q1 (s : cst) : Prop := one_of (c_r1 s) = 1%nat /\ c_r2 s = None.
  Definition Q2 (s : cst) : Prop := one_of (c_r1 s) = 1%nat /\ one_of (c_r2 s) = (if jtruthy (x_input2 x) then 1 else 0)%nat.
  Definition T {A} (P : cst -> Prop) (r : res A) (s : cst) : Prop := match r with Ok _ => P s | _ => True end.
  Lemma new_one f wp w r w' : reader_new f wp w = (Ok r, w') -> one_of (Some r) = 1%nat.
  Proof. unfold reader_new. destruct f as [f|]; [|discriminate]. destruct (gf_indexable f); intro H; injection H as <- _; reflexivity. Qed.
  Lemma op_one {A} (op : reader -> world -> res A * (reader * world)) r w y r' w' : same_io op -> op r w = (y, (r', w')) -> one_of (Some r') = one_of (Some r).
  Proof. intros Hs E. destruct (ci_op _ _ _ _ _ _ Hs E) as (_ & A1 & A2). unfold one_of. congruence. Qed.
  Lemma q_on1 {A} (op : reader -> world -> res A * (reader * world)) : same_io op -> hoare Q1 (on1 op) (T Q1).
  Proof.
    intros Hs s [H1 H2]. unfold on1. destruct (c_r1 s) as [r|] eqn:E; [|cbn; exact I]. destruct (op r (c_w s)) as [y [r' w']] eqn:Eo. cbn [fst snd]. destruct y; [|exact I]. split; [|exact H2]. cbn [c_r1]. now rewrite (op_one _ _ _ _ _ _ Hs Eo).
  Qed.
  Lemma q_on1' {A} (op : reader -> world -> res A * (reader * world)) : same_io op -> hoare Q2 (on1 op) (T Q2).
  Proof.
    intros Hs s [H1 H2]. unfold on1. destruct (c_r1 s) as [r|] eqn:E; [|cbn; exact I]. destruct (op r (c_w s)) as [y [r' w']] eqn:Eo. cbn [fst snd]. destruct y; [|exact I]. split; [|exact H2]. cbn [c_r1]. now rewrite (op_one _ _ _ _ _ _ Hs Eo).
  Qed.
  Lemma q_on2 {A} (op : reader -> world -> res A * (reader * world)) : same_io op -> hoare Q2 (on2 op) (T Q2).
  Proof.
    intros Hs s [H1 H2]. unfold on2. destruct (c_r2 s) as [r|] eqn:E; [|cbn; exact I]. destruct (op r (c_w s)) as [y [r' w']] eqn:Eo. cbn [fst snd]. destruct y; [|exact I]. split; [exact H1|]. cbn [c_r2]. now rewrite (op_one _ _ _ _ _ _ Hs Eo).
  Qed.
  Lemma hb {A B} (P R : cst -> Prop) (W : cst -> Prop) (m : M A) (f : A -> M B) : hoare P m (T R) -> (forall a, hoare R (f a) (T W)) -> hoare P (bind m f) (T W).
  Proof.
    intros H1 H2 s Hs. specialize (H1 s Hs). unfold bind. destruct (m s) as [[a|e] s']; cbn [fst snd T] in *; [exact (H2 a s' H1)|exact I].
  Qed.
  Lemma hl {A} (P : cst -> Prop) (r : res A) : hoare P (lift r) (T P).
  Proof. intros s Hs. unfold lift. destruct r; cbn; auto. Qed.
  Lemma hr {A} (P : cst -> Prop) (a : A) : hoare P (ret a) (T P).
  Proof. intros s Hs. exact Hs. Qed.
  Lemma q_execute : hoare (fun s => c_r2 s = None) (execute o x false) (T Q2).
  Proof.
    unfold execute. apply (hb _ Q1).
    { unfold init_execution. apply (hb _ Q1).
      { intros s Hs. unfold open1. destruct (reader_new (xt_file o (x_input x)) (negb (is_null (x_member x))) (c_w s)) as [[r|e] w] eqn:E; [|exact I]. split; [exact (new_one _ _ _ _ _ E)|exact Hs]. }
      intros []. apply (hb _ Q1); [apply hl|]. intro attrs. apply (hb _ Q1); [apply q_on1, io_info|]. intros [[i t] mv].
      apply (hb _ Q1); [intros s Hs; unfold make_writer; destruct (xt_writer o x mv); [exact Hs|exact I]|]. intros [].
      apply (hb _ Q1).
      { unfold look_for_geopotential. destruct (x_doCorr x); [|apply hr]. apply (hb _ Q1); [apply q_on1, io_geo|]. intros b s Hs. exact Hs. }
      intros []. apply (hb _ Q1); [apply hl|]. intros [[s e] g]. apply (hb _ Q1); [apply hl|]. intro sel. apply hr. }
    intros [[[input sel] e] g]. apply (hb _ Q1); [apply q_on1, io_select|]. intro m. apply (hb _ Q2).
    { unfold second_file. destruct (jtruthy (x_input2 x)) eqn:E2.
      - apply (hb _ Q2).
        { intros s [H1 H2]. unfold open2. destruct (reader_new (xt_file o (x_input2 x)) (negb (is_null (x_member x))) (c_w s)) as [[r|e0] w] eqn:E; [|exact I]. split; [exact H1|]. rewrite E2. exact (new_one _ _ _ _ _ E). }
        intros []. apply (hb _ Q2); [apply q_on2, io_select|]. intro m2. apply (hb _ Q2); [apply q_on2, io_main|]. intro g2. apply (hb _ Q2); [apply q_on1', io_ext|]. intros []. apply hr.
      - intros s [H1 H2]. cbn. split; [exact H1|]. rewrite E2, H2. reflexivity. }
    intro m'. apply (hb _ Q2); [apply q_on1', io_aux|]. intro a. apply (hb _ Q2); [apply hl|]. intros [[v m2] ch]. apply (hb _ Q2); [apply hr|]. intros []. apply hr.
  Qed.
End Readers.
Lemma execute_open o x w v s : execute o x false (cst0 w) = (Ok v, s) -> open_count (c_w s) = (open_count w + 1 + if jtruthy (x_input2 x) then 1 else 0)%nat.
Proof.
  intro H. pose proof (q_execute o x (cst0 w) eq_refl) as Q. rewrite H in Q. cbn [fst snd] in Q.
  assert (C : cnt0 w (cst0 w)) by (unfold cnt0, cnt, io; cbn; rewrite !Nat.add_0_r; auto).
  pose proof (ci_execute o x w false (cst0 w) C) as G. rewrite H in G. cbn [snd] in G. unfold cnt, io in G. injection G as G1 G2. unfold open_count. rewrite G1, G2. destruct Q as [Q1 Q2]. unfold one_of in *. lia.
Qed.
Lemma api_open o x w ws s : api_execute o x w = (Ok ws, s) -> open_count (c_w s) = (open_count w + 2 + if jtruthy (x_input2 x) then 1 else 0)%nat.
Proof.
  unfold api_execute. intro H. destruct (reader_new (xt_file o (x_input x)) (negb (is_null (x_member x))) w) as [[r0|e] w0] eqn:E0; [|discriminate]. destruct (select_cmd_attrs x) as [attrs|e]; [|discriminate].
  destruct (get_grib_info attrs r0 w0) as [[i|e] [r1 w1]] eqn:E1; [|discriminate]. destruct (execute o x false (cst0 w1)) as [[[[v m] c]|e] s'] eqn:E2; [|discriminate].
  assert (s' = s) by congruence. subst s'. rewrite (execute_open _ _ _ _ _ E2). destruct (io_info attrs _ _ _ _ _ E1) as [A _]. unfold io in A. injection A as A1 A2.
  assert (open_count w0 = open_count w + 1)%nat. { unfold reader_new in E0. destruct (xt_file o (x_input x)) as [f|]; [|discriminate]. unfold open_count. destruct (gf_indexable f); injection E0 as _ <-; cbn; lia. }
  unfold open_count in *. lia.
Qed.
