(** * Sim_P3: the same execution in two worlds (for C98). *)
From Verif Require Import Base Base_P Num PyStr Strings Config Context Aggregator Converter Reader Spec_Reader Reader_P2 Controller Controller_P6 Sim_P Sim_P2.
From Coq Require Import Lia.
Local Open Scope string_scope.

Lemma values_grids ev x input e g m v m' c : exec_values ev x input e g m = Ok (v, m', c) -> m_grid m' = m_grid m /\ m_grid2 m' = m_grid2 m.
Proof.
  unfold exec_values. intro H. apply rbind_ok in H as ((cv & m1) & H1 & H). apply rbind_ok in H as ((vs & ch) & H2 & H). assert (m1 = m') by congruence. subst m1. clear H H2.
  unfold convert_messages in H1. destruct (x_doConv x); [|now assert (m' = m) as -> by congruence]. cbv zeta in H1. apply rbind_ok in H1 as (f & _ & H1). apply rbind_ok in H1 as (s & _ & H1).
  injection H1 as _ <-. split; reflexivity.
Qed.

Section Exec.
Variable n k : Z.
Variable L1 L2 : list (Z * gmsg).
Hypothesis low1 : Forall (fun gm => fst gm < n)%Z L1.
Hypothesis low2 : Forall (fun gm => fst gm < n + k)%Z L2.
Variable o1 o2 : ext.
Variable x1 x2 : ctx.
Hypothesis Hfile : forall j, xt_file o2 j = xt_file o1 j.
Hypothesis Hnum : xt_numexpr o2 = xt_numexpr o1.
Hypothesis Hw1 : forall mv, xt_writer o1 x1 mv = Ok tt.
Hypothesis Hw2 : forall mv, xt_writer o2 x2 mv = Ok tt.
Hypothesis Hin : x_input x2 = x_input x1.
Hypothesis Hin2 : x_input2 x2 = x_input2 x1.
Hypothesis Hmem : x_member x2 = x_member x1.
Hypothesis Hcor : x_doCorr x2 = x_doCorr x1.
Hypothesis Hatt : select_cmd_attrs x2 = select_cmd_attrs x1.
Hypothesis Hcmd : forall a b, select_cmd x2 a b = select_cmd x1 a b.
Hypothesis Hrange : forall i t, choose_range x2 i t = choose_range x1 i t.
Hypothesis Hvals : forall ev i e g m, exec_values ev x2 i e g m = exec_values ev x1 i e g m.

Notation mrel := (mrel n k L1 L2).
Notation srel := (srel n k L1 L2).
Notation glive := (glive n).
Notation T := (fun _ : cst => True).

Lemma mrel_true {A B} P (y1 : M A) (y2 : M B) R : mrel T y1 y2 R -> mrel P y1 y2 R.
Proof. intros H s1 s2 Hs _. exact (H s1 s2 Hs I). Qed.
Lemma mrel_pre {A B} (P Q : cst -> Prop) (y1 : M A) (y2 : M B) R : (forall s, P s -> Q s) -> mrel Q y1 y2 R -> mrel P y1 y2 R.
Proof. intros H0 H s1 s2 Hs Hp. exact (H s1 s2 Hs (H0 _ Hp)). Qed.
Lemma mrel_ret {A B} (P : cst -> Prop) (a : A) (b : B) (R : A -> B -> cst -> Prop) : (forall s, P s -> R a b s) -> mrel P (ret a) (ret b) R.
Proof. intros H s1 s2 Hs Hp. cbn. auto. Qed.
Lemma mrel_open2 (P : cst -> Prop) f wp : (forall s r w, P s -> w_live w = w_live (c_w s) -> P (mkCst (c_r1 s) (Some r) (c_wr s) (c_geo s) (c_out s) w)) ->
  mrel P (open2 f wp) (open2 f wp) (fun _ _ s => P s).
Proof.
  intros HP s1 s2 (S1 & S2 & S3) Hp. unfold open2. pose proof (sim_new n k L1 L2 f wp _ _ S1) as H.
  assert (Lv : w_live (snd (reader_new f wp (c_w s1))) = w_live (c_w s1)). { unfold reader_new. destruct f as [f|]; [destruct (gf_indexable f)|]; reflexivity. }
  destruct (reader_new f wp (c_w s1)) as [[r1|e] w1], (reader_new f wp (c_w s2)) as [[r2|e'] w2]; try contradiction; [|exact H].
  destruct H as [H1 H2]. split; [now apply HP|]. split; [exact H2|]. split; [exact S2|exact H1].
Qed.
Lemma mrel_writer (P : cst -> Prop) mv : mrel T (make_writer o1 x1 mv) (make_writer o2 x2 mv) (fun _ _ _ => True).
Proof. intros s1 s2 (S1 & S2 & S3) _. unfold make_writer. rewrite Hw1, Hw2. split; [exact I|]. split; [exact S1|]; split; [exact S2|exact S3]. Qed.
Lemma mrel_look P : mrel P (look_for_geopotential x1) (look_for_geopotential x2) (fun _ _ _ => True).
Proof.
  unfold look_for_geopotential, chosen_member. rewrite Hcor, Hatt. destruct (x_doCorr x1); [|now apply mrel_ret].
  apply (mrel_bind _ _ _ _ _ _ _ _ _ _ _ (mrel_on1 _ _ _ _ P _ _ _ (sim_geo n k L1 L2 low1 low2 _))). intros a b s1 s2 (S1 & S2 & S3) _. split; [exact I|]. split; [exact S1|]; split; [exact S2|exact S3].
Qed.
Lemma mrel_init : mrel T (init_execution o1 x1) (init_execution o2 x2) (fun a b _ => a = b).
Proof.
  unfold init_execution. rewrite Hin, Hfile, Hmem, Hatt.
  eapply mrel_bind; [apply mrel_open1|]. intros ? ?.
  eapply mrel_bind; [apply mrel_lift|]. intros at1 at2. intros s1 s2 Hs [<- _]. revert s1 s2 Hs. intros s1 s2 Hs.
  assert (K : mrel T (let! '(i, t, mv) <- on1 (get_grib_info at1); let! _ <- make_writer o1 x1 mv; let! _ <- look_for_geopotential x1; let! '(s, e, g) <- lift (choose_range x1 i t); let! sel <- lift (select_cmd x1 s e); ret (i_step i, sel, e, g))
     (let! '(i, t, mv) <- on1 (get_grib_info at1); let! _ <- make_writer o2 x2 mv; let! _ <- look_for_geopotential x2; let! '(s, e, g) <- lift (choose_range x2 i t); let! sel <- lift (select_cmd x2 s e); ret (i_step i, sel, e, g)) (fun a b _ => a = b)).
  { eapply mrel_bind; [apply mrel_on1, sim_info; assumption|]. intros [[i t] mv] p s3 s4 H34 <-. revert s3 s4 H34. 
    assert (K : mrel T (let! _ <- make_writer o1 x1 mv; let! _ <- look_for_geopotential x1; let! '(s, e, g) <- lift (choose_range x1 i t); let! sel <- lift (select_cmd x1 s e); ret (i_step i, sel, e, g))
     (let! _ <- make_writer o2 x2 mv; let! _ <- look_for_geopotential x2; let! '(s, e, g) <- lift (choose_range x2 i t); let! sel <- lift (select_cmd x2 s e); ret (i_step i, sel, e, g)) (fun a b _ => a = b)).
    { eapply mrel_bind; [apply mrel_writer; exact T|]. intros ? ?. eapply mrel_bind; [apply mrel_look|]. intros ? ?. rewrite Hrange.
      eapply mrel_bind; [apply mrel_lift|]. intros [[s e] g] q s3 s4 H34 [<- _]. rewrite Hcmd. unfold lift, bind, ret. destruct (select_cmd x1 s e); auto. }
    intros s3 s4 H34. exact (K s3 s4 H34 I). }
  exact (K s1 s2 Hs I).
Qed.
Definition gl (m1 m2 : messages) (s : cst) : Prop := m2 = smsg k m1 /\ glive (c_w s) m1.
Lemma mrel_select1 sel : mrel T (on1 (select_messages sel)) (on1 (select_messages sel)) gl.
Proof.
  intros s1 s2 Hs _. pose proof Hs as (S1 & S2 & S3). unfold on1. destruct (c_r1 s1) as [r1|], (c_r1 s2) as [r2|]; cbn [orel] in S2; try contradiction; [|reflexivity].
  pose proof (sim_select n k L1 L2 low1 low2 sel r1 r2 _ _ S2 S1) as (T1 & T2 & T3). destruct (select_messages sel r1 (c_w s1)) as [[a|e] [r1' w1']] eqn:E1, (select_messages sel r2 (c_w s2)) as [[b|e'] [r2' w2']]; cbn [fst snd resr] in *; try tauto.
  destruct (select_live n k L1 L2 low1 low2 _ _ _ _ _ _ _ _ S2 S1 E1) as [G _]. split; [split; [exact T1|exact G]|]. split; [exact T3|]. split; [exact T2|exact S3].
Qed.
Lemma mrel_second sel m1 m2 : mrel (gl m1 m2) (second_file o1 x1 sel m1) (second_file o2 x2 sel m2) gl.
Proof.
  unfold second_file. rewrite Hin2, Hmem, Hfile. destruct (jtruthy (x_input2 x1)); [|now apply mrel_ret].
  eapply mrel_bind; [apply (mrel_open2 (gl m1 m2))|].
  { intros s r w [H1 H2] E. split; [exact H1|]. cbn [c_w]. destruct H2 as [H2 H3]. unfold glive, live. rewrite E. auto. }
  intros u1 u2. apply (mrel_bind _ _ _ _ _ _ _ (fun a b s => gl m1 m2 s /\ gl a b s)).
  - intros s1 s2 Hs [-> Hg]. pose proof Hs as (S1 & S2 & S3). unfold on2. destruct (c_r2 s1) as [r1|], (c_r2 s2) as [r2|]; cbn [orel] in S3; try contradiction; [|reflexivity].
    pose proof (sim_select n k L1 L2 low1 low2 sel r1 r2 _ _ S3 S1) as (T1 & T2 & T3). destruct (select_messages sel r1 (c_w s1)) as [[a|e] [r1' w1']] eqn:E1, (select_messages sel r2 (c_w s2)) as [[b|e'] [r2' w2']]; cbn [fst snd resr] in *; try tauto.
    destruct (select_live n k L1 L2 low1 low2 _ _ _ _ _ _ _ _ S3 S1 E1) as [G Gk]. split; [split; [split; [reflexivity|]|split; [exact T1|exact G]]|].
    + cbn [c_w]. destruct Hg as [Hg1 Hg2]. split; [now apply Gk|]. intros gr kk E. apply Gk. eauto.
    + split; [exact T3|]. split; [exact S2|exact T2].
  - intros a b. set (P := fun s : cst => gl m1 m2 s /\ gl a b s). cbv zeta.
    apply (mrel_bind _ _ _ _ _ _ _ (fun g1 g2 s => P s /\ ho n k g1 g2)).
    { intros s1 s2 (S1 & S2 & S3) Hp. unfold on2. destruct (c_r2 s1) as [r1|], (c_r2 s2) as [r2|]; cbn [orel] in S3; try contradiction; [|reflexivity].
      unfold get_main. split; [split; [exact Hp|]|]. - unfold rrel in S3. tauto. - split; [exact S1|]; split; [exact S2|exact S3]. }
    intros g1 g2. apply (mrel_bind _ _ _ _ _ _ _ (fun _ _ s => P s)).
    { intros s1 s2 (S1 & S2 & S3) [Hp Hg]. unfold on1. destruct (c_r1 s1) as [r1|], (c_r1 s2) as [r2|]; cbn [orel] in S2; try contradiction; [|reflexivity].
      pose proof (sim_ext n k L1 L2 g1 g2 r1 r2 _ _ Hg S2 S1) as (T1 & T2 & T3). destruct (set_ext g1 r1 (c_w s1)) as [[u|e] [r1' w1']] eqn:E1, (set_ext g2 r2 (c_w s2)) as [[v|e'] [r2' w2']]; cbn [fst snd resr] in *; try tauto.
      assert (w1' = c_w s1) by (unfold set_ext in E1; congruence). subst w1'. split; [exact Hp|]. split; [exact T3|]. split; [exact T2|exact S3]. }
    intros ? ?. apply mrel_ret. intros s [[-> [A1 A2]] [-> [B1 B2]]]. split; [apply append_shift|]. unfold append_2nd. split; cbn [m_grid m_grid2]; [exact A1|].
    intros gr kk E. assert (gr = m_grid a) as ->. { destruct (m_grid2 a) as [[? ?]|]; congruence. } exact B1.
Qed.
Lemma mrel_aux (m1 m2 : messages) : mrel (gl m1 m2) (on1 intertable_gids) (on1 intertable_gids) (fun _ _ s => gl m1 m2 s).
Proof.
  intros s1 s2 (S1 & S2 & S3) [-> Hg]. unfold on1. destruct (c_r1 s1) as [r1|], (c_r1 s2) as [r2|]; cbn [orel] in S2; try contradiction; [|reflexivity].
  pose proof (sim_aux n k L1 L2 low1 low2 r1 r2 _ _ S2 S1) as (T1 & T2 & T3).
  assert (Lv : w_live (snd (snd (intertable_gids r1 (c_w s1)))) = w_live (c_w s1)).
  { assert (D : forall g w, w_live (snd (w_deref g w)) = w_live w) by (intros g w; unfold w_deref; destruct (dget Z.eqb (w_live w) g); reflexivity).
    unfold intertable_gids. destruct (r_main r1) as [g|]; [|reflexivity]. pose proof (D g (c_w s1)) as D1. destruct (w_deref g (c_w s1)) as [[m|e] w]; [|exact D1]. cbn [snd] in D1.
    destruct (r_ext r1) as [g2|]; [|exact D1]. pose proof (D g2 w) as D2. destruct (w_deref g2 w) as [[m'|e'] w'']; cbn [snd] in *; congruence. }
  destruct (intertable_gids r1 (c_w s1)) as [[a|e] [r1' w1']], (intertable_gids r2 (c_w s2)) as [[b|e'] [r2' w2']]; cbn [fst snd resr] in *; try tauto.
  split; [split; [reflexivity|]|split; [exact T3|split; [exact T2|exact S3]]]. cbn [c_w]. unfold glive, live in *. rewrite Lv. exact Hg.
Qed.
(** the execution without writing: same steps, values and change of grid; the
    same messages but for the numbers of the handles *)
Lemma mrel_execute : mrel T (execute o1 x1 false) (execute o2 x2 false)
  (fun a b s => let '(v1, m1, c1) := a in let '(v2, m2, c2) := b in v1 = v2 /\ c1 = c2 /\ gl m1 m2 s).
Proof.
  unfold execute. eapply mrel_bind; [apply mrel_init|]. intros [[[input sel] e] g] p s1 s2 Hs <-.
  assert (K : mrel T (let! m <- on1 (select_messages sel); let! m <- second_file o1 x1 sel m; let! _ <- on1 intertable_gids; let! '(values, m, change) <- lift (exec_values (xt_numexpr o1) x1 input e g m); let! _ <- ret tt; ret (values, m, change))
     (let! m <- on1 (select_messages sel); let! m <- second_file o2 x2 sel m; let! _ <- on1 intertable_gids; let! '(values, m, change) <- lift (exec_values (xt_numexpr o2) x2 input e g m); let! _ <- ret tt; ret (values, m, change))
     (fun a b s => let '(v1, m1, c1) := a in let '(v2, m2, c2) := b in v1 = v2 /\ c1 = c2 /\ gl m1 m2 s)).
  { eapply mrel_bind; [apply mrel_select1|]. intros m1 m2. eapply mrel_bind; [apply mrel_second|]. clear m1 m2. intros m1 m2. eapply mrel_bind; [apply mrel_aux|]. intros ? ?.
    intros s3 s4 H34 [-> Hg]. rewrite Hnum, Hvals. unfold lift, bind, ret. rewrite values_shift.
    destruct (exec_values (xt_numexpr o1) x1 input e g m1) as [[[v m'] c]|er] eqn:E; cbn [rmap]; [|reflexivity].
    destruct (values_grids _ _ _ _ _ _ _ _ _ E) as [G1 G2]. split; [|exact H34]. split; [reflexivity|]. split; [reflexivity|]. split; [reflexivity|].
    destruct Hg as [A1 A2]. split; [now rewrite G1|]. intros gr kk. rewrite G2. apply A2. }
  exact (K s1 s2 Hs I).
Qed.
End Exec.
