(** * Controller_P6: hand-over between two resolutions (C35, C36) *)
From Verif Require Import Base Num PyStr Strings Config Context Aggregator Converter Reader Controller Spec_Controller Spec_Reader Base_P Reader_P Reader_P2 Reader_P3 Controller_P Controller_P2.
From Coq Require Import Permutation Sorted.
Local Open Scope Z_scope.

(** ** conversion keeps the keys *)
Lemma convert_fields_keys ev c xs ys : convert_fields ev c xs = Ok ys -> map fst ys = map fst xs.
Proof.
  unfold convert_fields. revert ys. induction xs as [|kv xs IH]; intros ys H; cbn [mapM] in H; [injection H as <-; reflexivity|].
  apply rbind_ok in H as [y [Hy H]]. apply rbind_ok in H as [r [Hr H]]. injection H as <-. apply rbind_ok in Hy as [a [_ Hy]]. injection Hy as <-.
  cbn [map fst]. now rewrite (IH _ Hr).
Qed.
Lemma convert_messages_inv ev x m c m' : convert_messages ev x m = Ok (c, m') ->
  map fst (m_first m') = map fst (m_first m) /\ map fst (m_second m') = map fst (m_second m) /\
  m_grid2 m' = m_grid2 m /\ m_grid m' = m_grid m /\ m_type m' = m_type m /\
  forall v, order_fields c v = sort_by (fun kv => s_end (fst kv)) (cut x v).
Proof.
  unfold convert_messages. destruct (x_doConv x) eqn:Ed; intro H.
  - apply rbind_ok in H as [f [Hf H]]. apply rbind_ok in H as [s [Hs H]]. injection H as <- <-. cbn [m_first m_second m_grid2 m_grid m_type].
    split; [exact (convert_fields_keys _ _ _ _ Hf)|]. split; [exact (convert_fields_keys _ _ _ _ Hs)|]. repeat split; auto.
    intro v. unfold order_fields, cut. rewrite Ed. reflexivity.
  - injection H as <- <-. repeat split; auto. intro v. unfold order_fields, cut. now rewrite Ed.
Qed.
Lemma cut_keys x l : map fst (cut x l) = map fst l.
Proof. unfold cut. destruct (x_doConv x && x_cutoff x)%bool; [apply cut_off_keys|reflexivity]. Qed.
Lemma cut_app x a b : cut x (a ++ b) = (cut x a ++ cut x b)%list.
Proof. unfold cut. destruct (x_doConv x && x_cutoff x)%bool; [apply cut_off_app|reflexivity]. Qed.

(** ** the two sets of one file have different numbers of points along a meridian *)
Lemma fold_res step2 change main ms : forall st st', foldM (select_body step2 change main) ms st = Ok st' ->
  (forall k, In k (map fst (ss_first st)) -> other_nj (s_res k) main = false) -> (forall k, In k (map fst (ss_second st)) -> other_nj (s_res k) main = true) ->
  (forall k, In k (map fst (ss_first st')) -> other_nj (s_res k) main = false) /\ (forall k, In k (map fst (ss_second st')) -> other_nj (s_res k) main = true).
Proof.
  induction ms as [|[g m] ms IH]; intros st st' H H1 H2; [injection H as <-; auto|].
  cbn [foldM] in H. apply rbind_ok in H as [s1 [Hb H]]. apply (IH _ _ H); clear IH H.
  - destruct (select_body_inv _ _ _ _ _ _ _ Hb) as [x [Hx [_ Hr]]]. destruct (other_nj (rd_nj x) main) eqn:E.
    + destruct Hr as [-> _]. exact H1.
    + destruct Hr as [_ [_ ->]]. destruct (ss_grid2 st); [exact H1|]. intros k Hk.
      change (In k (dkeys (dset step_eqb (ss_first st) (rd_key (if is_change change x then step2 else ss_input st) x) (rd_field x)))) in Hk.
      rewrite (dkeys_dset step_eqb) in Hk. destruct (dmem step_eqb _ _); [now apply H1|]. apply in_app_or in Hk as [Hk|[<-|[]]]; [now apply H1|exact E].
  - destruct (select_body_inv _ _ _ _ _ _ _ Hb) as [x [Hx [_ Hr]]]. destruct (other_nj (rd_nj x) main) eqn:E.
    + destruct Hr as [_ [-> _]]. intros k Hk.
      change (In k (dkeys (dset step_eqb (ss_second st) (rd_key (if is_change change x then step2 else ss_input st) x) (rd_field x)))) in Hk.
      rewrite (dkeys_dset step_eqb) in Hk. destruct (dmem step_eqb _ _); [now apply H2|]. apply in_app_or in Hk as [Hk|[<-|[]]]; [now apply H2|exact E].
    + destruct Hr as [_ [-> _]]. exact H2.
Qed.
Definition two_meridians (m : messages) : Prop :=
  forall k1 k2, In k1 (map fst (m_first m)) -> In k2 (map fst (m_second m)) -> s_res k1 <> s_res k2.
Lemma build_meridians step step2 change ms m : build_messages step step2 change ms = Ok m -> two_meridians m.
Proof.
  intros H k1 k2 H1 H2 E. destruct (build_inv _ _ _ _ _ H) as [g0 [m0 [rest [main [st [_ [_ [_ [Hst [E1 [E2 _]]]]]]]]]]]. rewrite E1 in H1. rewrite E2 in H2.
  destruct (fold_res _ _ _ _ _ _ Hst) as [A B]; try (intros k []). specialize (A _ H1). specialize (B _ H2). rewrite E in A. congruence.
Qed.

(** ** both resolutions aggregated *)
Lemma two_resolutions x i t s e g m values change gr k a :
  choose_range x i t = Ok (s, e, Some g) -> aggregate x (i_step i) e (Some g) m = Ok (values, change) ->
  m_grid2 m = Some (gr, k) -> two_meridians m -> jint (x_astep x) = Ok a -> 0 < a -> 0 <= s_end k -> 0 <= i_step i -> s_end k + a < e ->
  exists g2 out1 out2 c, do_manipulation (change_end_step g (s_start k)) (m_first m) = Ok out1 /\
    new_aggr x (i_step i) (m_type m) (s_end k + a) e = Ok g2 /\ do_manipulation g2 (m_second m) = Ok out2 /\
    values = (out1 ++ out2)%list /\ change = Some c /\ first_by_end out2 = Ok c /\
    (exists P, keys_inv P out1 /\ exists res lev inp, forall kk, P kk -> s_res kk = res /\ s_level kk = lev /\ s_input kk = inp) /\
    (exists P, keys_inv P out2 /\ exists res lev inp, forall kk, P kk -> s_res kk = res /\ s_level kk = lev /\ s_input kk = inp) /\
    (forall k1 k2, In k1 (map fst out1) -> In k2 (map fst out2) -> s_res k1 <> s_res k2) /\
    (forall k1, In k1 (map fst out1) ->
       s_end k1 <= (if (String.eqb (aggr_name (x_atype x)) "average" && (a_start g =? 0))%bool then s_start k + 1 else s_start k) /\
       (aggr_name (x_atype x) = "instantaneous"%string /\ s_end k1 = s_start k1 \/ s_end k1 = s_start k1 + a)) /\
    (forall k2, In k2 (map fst out2) -> s_end k <= s_start k2 /\ (aggr_name (x_atype x) = "instantaneous"%string /\ s_end k2 = s_start k2 \/ s_end k2 = s_start k2 + a)).
Proof.
  intros Hr Ha Hg Hm Hj Hp Hk Hi He.
  destruct (choose_range_inv _ _ _ _ _ _ Hr) as [s0 [e0 [_ [_ [Hd [Hn [Hs [He1 He0]]]]]]]].
  destruct (aggregate_inv _ _ _ _ _ _ _ Ha) as [out1 [H1 H2]]. rewrite Hg in H2. destruct H2 as [a' [Ha' H2]]. assert (a' = a) by congruence. subst a'.
  rewrite Hd in H2. destruct (Z.ltb_spec (s_end k + a) e) as [_|]; [|lia]. cbn [andb] in H2.
  destruct H2 as [g2 [out2 [c [Hg2 [Ho2 [Hc [-> ->]]]]]]]. unfold first_fields in H1. rewrite Hg in H1.
  exists g2, out1, out2, c.
  destruct (new_aggr_inv _ _ _ _ _ _ Hn) as [u [a1 [Ha1 [Hu Eg]]]]. assert (a1 = a) by congruence. subst a1.
  assert (S1 : a_step (change_end_step g (s_start k)) = a) by (now rewrite Eg).
  assert (S0 : a_start g = s0) by (now rewrite Eg).
  destruct (new_aggr_inv _ _ _ _ _ _ Hg2) as [u2 [a2 [Ha2 [Hu2 Eg2]]]]. assert (a2 = a) by congruence. subst a2.
  assert (S2 : a_step g2 = a) by (now rewrite Eg2).
  destruct (manip_keys (change_end_step g (s_start k)) (m_first m) out1 ltac:(lia) H1) as [k1 [v1 [r1 [E1 K1]]]].
  destruct (manip_keys g2 (m_second m) out2 ltac:(lia) Ho2) as [k2 [v2 [r2 [E2 K2]]]].
  assert (HR : forall ka kb, In ka (map fst out1) -> In kb (map fst out2) -> s_res ka <> s_res kb).
  { intros ka kb Ia Ib. destruct K1 as [_ K1]. destruct K2 as [_ K2]. destruct (K1 _ Ia) as [-> _]. destruct (K2 _ Ib) as [-> _]. apply Hm; [rewrite E1|rewrite E2]; now left. }
  split; [exact H1|]. split; [exact Hg2|]. split; [exact Ho2|]. split.
  { apply dupdate_disjoint; [apply K2|]. intros kk I2 I1. exact (HR kk kk I1 I2 eq_refl). }
  split; [reflexivity|]. split; [exact Hc|]. split.
  { eexists. split; [exact K1|]. eexists _, _, _. intros kk [A [B [C _]]]. split; [exact A|]. split; [exact B|exact C]. }
  split.
  { eexists. split; [exact K2|]. eexists _, _, _. intros kk [A [B [C _]]]. split; [exact A|]. split; [exact B|exact C]. }
  split; [exact HR|]. split.
  - intros ka Ia. destruct K1 as [_ K1]. destruct (K1 _ Ia) as [_ [_ [_ W]]]. rewrite S0.
    destruct (first_windows _ _ _ _ _ _ _ _ _ Hj Hp Hn W) as [A [_ B]]. auto.
  - intros kb Ib. destruct K2 as [_ K2]. destruct (K2 _ Ib) as [_ [_ [_ W]]].
    destruct (second_windows _ _ _ _ _ _ _ _ Hj Hp Hk Hi Hg2 W) as [A [_ B]]. split; [exact A|].
    destruct W as [[Ty [W _]]|[[Ty [W _]]|[Ty [W _]]]]; rewrite S2 in W || idtac; try (right; lia).
    left. split; [|lia]. rewrite Eg2 in Ty. exact Ty.
Qed.

Lemma in_windows l k : In k (map fst (l : fields)) -> In (window k) (map window (map fst l)).
Proof. apply in_map. Qed.
Lemma NoDup_app2 {A} (l1 l2 : list A) : NoDup l1 -> NoDup l2 -> (forall x, In x l1 -> In x l2 -> False) -> NoDup (l1 ++ l2)%list.
Proof. apply NoDup_app_intro. Qed.

Lemma first_by_end_sorted (v : fields) c : first_by_end v = Ok c -> exists a r, sort_by (fun kv => s_end (fst kv)) v = (c, a) :: r.
Proof.
  intro H. destruct (first_by_end_spec _ _ H) as [r [E _]]. unfold dkeys in E.
  rewrite (sort_by_map s_end fst v) in E. destruct (sort_by (fun b : step * arr => s_end (fst b)) v) as [|[c' a] r']; [discriminate|].
  cbn [map fst] in E. injection E as -> _. eauto.
Qed.
Lemma first_by_end_keys (v v' : fields) : map fst v = map fst v' -> first_by_end v = first_by_end v'.
Proof. unfold first_by_end, dkeys. now intros ->. Qed.
