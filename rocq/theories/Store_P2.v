(** * Store_P2: several processes, downloads, check_conf *)
From Verif Require Import Base PyStr Writers Config Json Interp Store Spec_Store Base_P PyStr_P Config_P Config_P2 Json_P Store_P.
From Coq Require Import Permutation Lia.
Local Open Scope string_scope.

(** ** whole updates *)
Definition wrun (init : json) (m : machine) (ws : list whole) : machine := mrun init m (whole_schedule ws).
Lemma wrun_app init m a b : wrun init m (a ++ b) = wrun init (wrun init m a) b.
Proof. unfold wrun, whole_schedule, mrun. rewrite map_app, concat_app, fold_left_app. reflexivity. Qed.
Lemma upd_same f p s : upd f p s p = s.
Proof. unfold upd. now rewrite Nat.eqb_refl. Qed.
Lemma upd_other f p s q : q <> p -> upd f p s q = f q.
Proof. unfold upd. intro H. now rewrite (proj2 (Nat.eqb_neq q p) H). Qed.

Lemma mstep_other init m p a q : q <> p -> m_procs (mstep init m (p, a)) q = m_procs m q.
Proof.
  intro H. unfold mstep. cbn [fst snd]. destruct a, (m_procs m p); try reflexivity; cbn [m_procs]; now apply upd_other.
Qed.
Lemma wrun1_other init m w q : (match w with Starts p => q <> p | Updates p _ => q <> p end) -> m_procs (wrun init m [w]) q = m_procs m q.
Proof.
  destruct w as [p|p c]; intro H; unfold wrun, whole_schedule, mrun; cbn [map steps_of List.concat app fold_left]; now rewrite ?mstep_other.
Qed.

Lemma step_do init m p c u u' : m_procs m p = Ready u -> apply_change u c = Ok u' ->
  mstep init m (p, Do c) = {| m_file := m_file m; m_procs := upd (m_procs m) p (Pending u') |}.
Proof. intros H E. unfold mstep. cbn [fst snd]. now rewrite H, E. Qed.
Lemma step_open init m p u : m_procs m p = Pending u ->
  mstep init m (p, OpenW) = {| m_file := Some ""; m_procs := upd (m_procs m) p (Opened u) |}.
Proof. intros H. unfold mstep. cbn [fst snd]. now rewrite H. Qed.
Lemma step_write init m p u : m_procs m p = Opened u ->
  mstep init m (p, WriteW) = {| m_file := Some (overlay (match m_file m with Some t => t | None => "" end) (conf_text u));
                                m_procs := upd (m_procs m) p (Ready u) |}.
Proof. intros H. unfold mstep. cbn [fst snd]. now rewrite H. Qed.
Lemma update_ready init m p c d : m_procs m p = Ready (JObj d) -> good d -> ordinary c -> exists d',
  good d' /\ (forall k, dget String.eqb d' k = last_value (dget String.eqb d k) [c] k) /\
  m_file (wrun init m [Updates p c]) = Some (conf_text (JObj d')) /\ m_procs (wrun init m [Updates p c]) p = Ready (JObj d').
Proof.
  intros Hp Hg Hc. destruct (change_good d c Hg Hc) as [d' [E [G L]]]. exists d'. split; [exact G|]. split; [exact L|].
  unfold wrun, whole_schedule, mrun. cbn [map steps_of List.concat app fold_left].
  rewrite (step_do _ _ _ _ _ _ Hp E). rewrite (step_open _ _ p (JObj d')) by apply upd_same.
  rewrite (step_write _ _ p (JObj d')) by apply upd_same. cbn [m_file m_procs]. rewrite upd_same.
  unfold overlay. split; [|reflexivity]. replace (sdrop (String.length (conf_text (JObj d'))) "") with "".
  - now rewrite sapp_nil_r.
  - destruct (String.length (conf_text (JObj d'))); reflexivity.
Qed.
Lemma start_again init m p u : m_procs m p = Ready u -> wrun init m [Starts p] = m.
Proof. intro H. unfold wrun, whole_schedule, mrun. cbn [map steps_of List.concat app fold_left]. unfold mstep. cbn [fst snd]. rewrite H. reflexivity. Qed.
Lemma update_idle init m p c : m_procs m p = Idle -> wrun init m [Updates p c] = m.
Proof.
  intro H. assert (E : forall a, a <> Begin -> mstep init m (p, a) = m).
  { intros a Ha. unfold mstep. cbn [fst snd]. rewrite H. destruct a; congruence. }
  unfold wrun, whole_schedule, mrun. cbn [map steps_of List.concat app fold_left]. rewrite !E; try discriminate. reflexivity.
Qed.
Lemma start_file init m p : m_file (wrun init m [Starts p]) = m_file m.
Proof. unfold wrun, whole_schedule, mrun. cbn [map steps_of List.concat app fold_left]. unfold mstep. cbn [fst snd]. destruct (m_procs m p); reflexivity. Qed.
Lemma start_idle init m p t d : m_procs m p = Idle -> m_file m = Some t -> loads t = Some (JObj d) ->
  m_procs (wrun init m [Starts p]) p = Ready (JObj d).
Proof.
  intros Hp Hf Hl. unfold wrun, whole_schedule, mrun. cbn [map steps_of List.concat app fold_left]. unfold mstep. cbn [fst snd]. rewrite Hp.
  cbn [m_procs]. rewrite upd_same. unfold conf_start. rewrite Hf, Hl. reflexivity.
Qed.

(** every process is not started or has good variables, the file is good *)
Definition minv (m : machine) : Prop :=
  (exists t d, m_file m = Some t /\ loads t = Some (JObj d) /\ good d) /\
  forall p, m_procs m p = Idle \/ exists d, m_procs m p = Ready (JObj d) /\ good d.
Definition wordinary (w : whole) : Prop := match w with Starts _ => True | Updates _ c => ordinary c end.

Lemma minv_step init m w : minv m -> wordinary w -> minv (wrun init m [w]).
Proof.
  intros [[t [d [Hf [Hl Hg]]]] Hp] Hw. destruct w as [p|p c].
  - split; [exists t, d; rewrite start_file; auto|]. intro q. destruct (Nat.eq_dec q p) as [->|Hq].
    + destruct (Hp p) as [H|[d' [H G]]]; right.
      * exists d. split; [|exact Hg]. eapply start_idle; eauto.
      * exists d'. split; [|exact G]. now rewrite (start_again init m p _ H).
    + rewrite wrun1_other by exact Hq. apply Hp.
  - destruct (Hp p) as [H|[d' [H G]]].
    + rewrite update_idle by exact H. split; [exists t, d; auto|exact Hp].
    + destruct (update_ready init m p c d' H G Hw) as [d2 [G2 [_ [Ef Ep]]]]. split.
      * destruct (dumped_good d2 G2) as [d3 [R1 [R2 _]]]. exists (conf_text (JObj d2)), d3. auto.
      * intro q. destruct (Nat.eq_dec q p) as [->|Hq]; [right; exists d2; auto|]. rewrite wrun1_other by exact Hq. apply Hp.
Qed.
Lemma wrun_cons init m w ws : wrun init m (w :: ws) = wrun init (wrun init m [w]) ws.
Proof. apply (wrun_app init m [w] ws). Qed.
Lemma minv_run init ws : forall m, minv m -> Forall wordinary ws -> minv (wrun init m ws).
Proof.
  induction ws as [|w ws IH]; intros m Hm Hw; [exact Hm|]. inversion Hw; subst. rewrite wrun_cons. apply IH; [now apply minv_step|assumption].
Qed.
Lemma idle_run init ws : forall m p, m_procs m p = Idle -> ~ In p (starters ws) -> m_procs (wrun init m ws) p = Idle.
Proof.
  induction ws as [|w ws IH]; intros m p Hp Hn; [exact Hp|]. rewrite wrun_cons. destruct w as [q|q c]; cbn [starters] in Hn.
  - apply IH; [|intro; apply Hn; now right]. rewrite wrun1_other; [exact Hp|]. intros ->. apply Hn. now left.
  - apply IH; [|exact Hn]. destruct (Nat.eq_dec p q) as [->|Hq]; [now rewrite update_idle|]. now rewrite wrun1_other.
Qed.
Lemma ready_run init ws : forall m p d, m_procs m p = Ready (JObj d) -> good d -> Forall wordinary ws -> exists d',
  m_procs (wrun init m ws) p = Ready (JObj d') /\ good d' /\
  forall k, dget String.eqb d' k = last_value (dget String.eqb d k) (updates_of p ws) k.
Proof.
  induction ws as [|w ws IH]; intros m p d Hp Hg Hw; [exists d; auto|]. inversion Hw as [|? ? Hw1 Hws]; subst. rewrite wrun_cons.
  destruct w as [q|q c]; cbn [updates_of].
  - destruct (Nat.eq_dec p q) as [->|Hq]; [rewrite (start_again init m q _ Hp)|]; apply IH; auto. now rewrite wrun1_other.
  - destruct (Nat.eqb_spec q p) as [->|Hq].
    + destruct (update_ready init m p c d Hp Hg Hw1) as [d1 [G1 [L1 [_ P1]]]].
      destruct (IH _ p d1 P1 G1 Hws) as [d2 [P2 [G2 L2]]]. exists d2. split; [exact P2|]. split; [exact G2|].
      intro k. rewrite L2, L1. now rewrite <- (last_value_app [c]).
    + apply IH; auto. rewrite wrun1_other; auto.
Qed.
Lemma starts_file init ws : forall m, updates ws = [] -> m_file (wrun init m ws) = m_file m.
Proof.
  induction ws as [|w ws IH]; intros m H; [reflexivity|]. rewrite wrun_cons. destruct w; [|discriminate]. cbn [updates] in H.
  rewrite IH by exact H. apply start_file.
Qed.

Definition fresh_machine (text : string) : machine := {| m_file := Some text; m_procs := fun _ => Idle |}.

Lemma last_writer init t0 d0 a p b c e : loads t0 = Some (JObj d0) -> good d0 -> ~ In p (starters a) ->
  Forall wordinary (a ++ Starts p :: b ++ Updates p c :: e) -> updates e = [] ->
  exists t1 d1 t2 d2, m_file (wrun init (fresh_machine t0) a) = Some t1 /\ loads t1 = Some (JObj d1) /\ good d1 /\
    m_file (wrun init (fresh_machine t0) (a ++ Starts p :: b ++ Updates p c :: e)) = Some t2 /\ loads t2 = Some (JObj d2) /\ good d2 /\
    forall k, csame (dget String.eqb d2 k) (last_value (dget String.eqb d1 k) (updates_of p b ++ [c]) k).
Proof.
  intros H0 G0 Hp Hw He. apply Forall_app in Hw as [Ha Hw]. inversion Hw as [|? ? _ Hw']; subst. apply Forall_app in Hw' as [Hb Hw'].
  inversion Hw' as [|? ? Hc _]; subst. cbn [wordinary] in Hc.
  assert (M0 : minv (fresh_machine t0)) by (split; [exists t0, d0; auto|left; reflexivity]).
  assert (M1 := minv_run init a _ M0 Ha). destruct M1 as [[t1 [d1 [F1 [L1 G1]]]] _].
  exists t1, d1. rewrite wrun_app, wrun_cons, wrun_app, (wrun_cons init _ (Updates p c)), (starts_file init e) by exact He.
  assert (P1 : m_procs (wrun init (wrun init (fresh_machine t0) a) [Starts p]) p = Ready (JObj d1)).
  { eapply start_idle; eauto. apply idle_run; [reflexivity|exact Hp]. }
  destruct (ready_run init b _ p d1 P1 G1 Hb) as [d2 [P2 [G2 L2]]].
  destruct (update_ready init _ p c d2 P2 G2 Hc) as [d3 [G3 [L3 [F3 _]]]].
  destruct (dumped_good d3 G3) as [d4 [R1 [R2 R3]]]. exists (conf_text (JObj d3)), d4.
  split; [exact F1|]. split; [exact L1|]. split; [exact G1|]. split; [exact F3|]. split; [exact R1|]. split; [exact R2|].
  intro k. eapply csame_trans; [apply R3|]. rewrite L3, L2, <- last_value_app. reflexivity.
Qed.

Definition undisturbed (ws : list whole) : Prop := forall a p c e, ws = (a ++ Updates p c :: e)%list ->
  exists a1 b, a = (a1 ++ Starts p :: b)%list /\ ~ In p (starters a1) /\
    Forall (fun w => match w with Starts _ => True | Updates q _ => q = p end) b.

Lemma updates_app a b : updates (a ++ b) = (updates a ++ updates b)%list.
Proof. induction a as [|[p|p c] a IH]; cbn [app updates]; [reflexivity|exact IH|now rewrite IH]. Qed.
Lemma updates_of_only p b : Forall (fun w => match w with Starts _ => True | Updates q _ => q = p end) b -> updates_of p b = updates b.
Proof. induction 1 as [|[q|q c] b H Hb IH]; cbn [updates_of updates]; [reflexivity|exact IH|]. subst. now rewrite Nat.eqb_refl, IH. Qed.
Lemma undisturbed_app a b : undisturbed (a ++ b) -> undisturbed a.
Proof. intros H x p c e E. subst. apply (H x p c (e ++ b)%list). now rewrite <- List.app_assoc. Qed.

Lemma serial init t0 d0 : loads t0 = Some (JObj d0) -> good d0 -> forall n ws, (List.length ws <= n)%nat -> Forall wordinary ws -> undisturbed ws ->
  exists t d, m_file (wrun init (fresh_machine t0) ws) = Some t /\ loads t = Some (JObj d) /\ good d /\
    forall k, csame (dget String.eqb d k) (last_value (dget String.eqb d0 k) (updates ws) k).
Proof.
  intros H0 G0. induction n as [|n IH]; intros ws Hn Hw Hu.
  - destruct ws; [|cbn in Hn; lia]. exists t0, d0. repeat split; auto; apply G0.
  - destruct ws as [|w0 ws0] eqn:Ew; [exists t0, d0; repeat split; auto; apply G0|].
    destruct (exists_last (l := w0 :: ws0)) as [ws' [w E]]; [discriminate|]. rewrite E in *. clear w0 ws0 E Ew.
    rewrite app_length in Hn. cbn [List.length] in Hn. apply Forall_app in Hw as Hw2. destruct Hw2 as [Hw' Hw1].
    destruct w as [p|p c].
    + destruct (IH ws') as [t [d [F [L [G K]]]]]; [lia|exact Hw'|eapply undisturbed_app; exact Hu|].
      exists t, d. rewrite wrun_app, start_file, updates_app. cbn [updates]. rewrite List.app_nil_r. auto.
    + destruct (Hu ws' p c [] eq_refl) as [a1 [b [E [Ha Hb]]]]. subst ws'.
      replace ((a1 ++ Starts p :: b) ++ [Updates p c])%list with (a1 ++ Starts p :: b ++ Updates p c :: [])%list in * by (rewrite <- List.app_assoc; reflexivity).
      destruct (last_writer init t0 d0 a1 p b c [] H0 G0 Ha Hw eq_refl) as [t1 [d1 [t2 [d2 [F1 [L1 [G1 [F2 [L2 [G2 K]]]]]]]]]].
      destruct (IH a1) as [t3 [d3 [F3 [L3 [G3 K3]]]]].
      * rewrite app_length in Hn. lia.
      * apply Forall_app in Hw as [Hx _]. exact Hx.
      * eapply undisturbed_app. exact Hu.
      * exists t2, d2. split; [exact F2|]. split; [exact L2|]. split; [exact G2|]. intro k.
        eapply csame_trans; [apply K|]. rewrite updates_app. cbn [updates]. rewrite updates_app. cbn [updates].
        rewrite (last_value_app (updates a1)), (updates_of_only p b Hb). apply last_value_csame.
        assert (d1 = d3) by congruence. subst. apply K3.
Qed.
