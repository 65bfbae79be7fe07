(** * Which cells the aggregations combine, for any arithmetic *)
From Verif Require Import Base Num Float64 Aggregator AggregatorWith Spec_Aggregation Base_P Num_P Aggregator_P.
From Coq Require Import Lia List.
Local Open Scope Z_scope.

Lemma In_dset_step (out : fields) k x k' y : In (k', y) (dset step_eqb out k x) -> (k' = k /\ y = x) \/ In (k', y) out.
Proof.
  induction out as [|[k1 z] out IH]; cbn [dset]; intro H.
  - destruct H as [H|[]]. injection H as <- <-. auto.
  - destruct (step_eqb k k1) eqn:E; cbn [In] in *.
    + destruct H as [H|H]; [|auto]. injection H as <- <-. apply step_eqb_spec in E. auto.
    + destruct H as [H|H]; [auto|]. destruct (IH H); auto.
Qed.

Section With.
  Variables add sub mul div : num -> num -> num.

  (** the field subtracted in the window that starts at [t] *)
  Definition start_field (values : fields) (n : nat) (force : bool) (t : Z) (c : arr) : Prop :=
    if (t =? 0) && (force || negb (zmem 0 (dkeys (by_end_step values)))) then c = Nd (zeros n)
    else dget Z.eqb (by_end_step values) t = Some c.

  Definition acc_inv (g : aggr) (values : fields) (n : nat) (r l : Z) (st : acc_state) : Prop :=
    (forall t c, dget Z.eqb (by_end_step values) t = Some c -> dget Z.eqb (ac_v st) t = Some c) /\
    (~ In 0 (dkeys (by_end_step values)) -> (ac_zero st = true -> dget Z.eqb (ac_v st) 0 = Some (Nd (zeros n))) /\
       (ac_zero st = false -> dget Z.eqb (ac_v st) 0 = None)) /\
    (forall k a, In (k, a) (ac_out st) -> s_start k = s_end k - a_step g /\ 
       forall c p, dget Z.eqb (by_end_step values) (s_end k) = Some c -> start_field values n (a_force g) (s_start k) p ->
         acc_out_with add sub mul div n (a_unit g) (a_step g) c p = Ok a).

  Lemma acc_body_inv g values n r l st x st' : 0 < x -> 0 < a_step g -> acc_inv g values n r l st ->
    acc_body_with add sub mul div g n r l st x = Ok st' -> acc_inv g values n r l st'.
  Proof.
    intros Hx Hs [I1 [I2 I3]] H. unfold acc_body_with in H.
    apply rbind_ok in H as [v1 [H1 H]]. apply rbind_ok in H as [[v2 z2] [H2 H]]. apply rbind_ok in H as [pr [H3 H]].
    apply rbind_ok in H as [cu [H4 H]]. apply rbind_ok in H as [o [H5 H]]. injection H as <-.
    set (s := a_step g) in *.
    assert (V1 : forall t, (t = x /\ ~ In x (dkeys (ac_v st))) \/ dget Z.eqb v1 t = dget Z.eqb (ac_v st) t).
    { intro t. unfold acc_fill_iter_with in H1. destruct (zmem x (dkeys (ac_v st))) eqn:E; [injection H1 as <-; auto|].
      apply rbind_ok in H1 as [a [_ H1]]. injection H1 as <-. rewrite (dget_dset Z.eqb Zeqb_spec').
      destruct (Z.eqb_spec t x) as [->|]; [left; split; [reflexivity|now apply zmem_nIn]|right; reflexivity]. }
    assert (V2 : forall t, (t = x - s /\ ~ In t (dkeys (ac_v st)) /\ (t = 0 -> dget Z.eqb v2 0 = Some (Nd (zeros n)) /\ z2 = true)) \/
        dget Z.eqb v2 t = dget Z.eqb v1 t).
    { intro t. unfold acc_fill_prev_with in H2.
      destruct ((0 <=? x - s) && negb (zmem (x - s) (dkeys (ac_v st))) && negb (ac_zero st)) eqn:E; [|injection H2 as <- <-; auto].
      apply andb_prop in E as [E _]. apply andb_prop in E as [_ E]. apply Bool.negb_true_iff, zmem_nIn in E.
      apply rbind_ok in H2 as [nx [_ H2]]. destruct (Z.eqb_spec (x - s) 0) as [E0|E0].
      - injection H2 as <- <-. rewrite !(dget_dset Z.eqb Zeqb_spec'). destruct (Z.eqb_spec t 0) as [->|]; [|auto].
        left. rewrite E0 in E. split; [lia|]. split; [exact E|]. auto.
      - apply rbind_ok in H2 as [a [_ H2]]. injection H2 as <- <-. rewrite !(dget_dset Z.eqb Zeqb_spec').
        destruct (Z.eqb_spec t (x - s)) as [->|]; [|auto]. left. split; [reflexivity|]. split; [exact E|]. lia. }
    assert (Z2 : z2 = ac_zero st \/ (z2 = true /\ dget Z.eqb v2 0 = Some (Nd (zeros n)) /\ x - s = 0)).
    { unfold acc_fill_prev_with in H2. destruct (_ && _ && _); [|injection H2 as <- <-; auto].
      apply rbind_ok in H2 as [nx [_ H2]]. destruct (Z.eqb_spec (x - s) 0) as [E0|E0].
      - injection H2 as <- <-. right. rewrite !(dget_dset Z.eqb Zeqb_spec'). auto.
      - apply rbind_ok in H2 as [a [_ H2]]. injection H2 as <- <-. auto. }
    assert (G : forall t c, dget Z.eqb (by_end_step values) t = Some c -> dget Z.eqb v2 t = Some c).
    { intros t c Hc. apply I1 in Hc. assert (Hin : In t (dkeys (ac_v st))).
      { apply (dget_In Z.eqb Zeqb_spec') in Hc. unfold dkeys. apply in_map_iff. exists (t, c). auto. }
      destruct (V2 t) as [[_ [N _]]|E2]; [contradiction|]. rewrite E2. destruct (V1 t) as [[-> N]|E1]; [contradiction|]. now rewrite E1. }
    assert (B0 : dget Z.eqb v1 0 = dget Z.eqb (ac_v st) 0) by (destruct (V1 0) as [[? _]|E]; [lia|exact E]).
    split; [exact G|]. split.
    - intro Hn0. destruct (I2 Hn0) as [J1 J2]. cbn [ac_zero ac_v]. split; intro Hz.
      + destruct Z2 as [Ez|[_ [Ez _]]]; [|exact Ez]. destruct (V2 0) as [[_ [_ N]]|E2]; [exact (proj1 (N eq_refl))|].
        rewrite E2, B0. apply J1. congruence.
      + destruct Z2 as [Ez|[Ez _]]; [|congruence]. destruct (V2 0) as [[_ [_ N]]|E2]; [destruct (N eq_refl); congruence|].
        rewrite E2, B0. apply J2. congruence.
    - intros k a Hin. cbn [ac_out] in Hin. apply In_dset_step in Hin as [[-> ->]|Hin]; [|apply I3, Hin].
      cbn [s_start s_end]. split; [reflexivity|]. intros c p Hc Hp.
      apply G in Hc. unfold dgetx in H4. rewrite Hc in H4. injection H4 as <-.
      enough (pr = p) by (subst; exact H5).
      unfold acc_prev_field in H3. unfold start_field in Hp. fold s in H3.
      destruct (Z.eqb_spec (x - s) 0) as [E0|E0].
      + cbn [andb] in *. destruct (a_force g); cbn [orb] in Hp; [injection H3 as <-; now rewrite Hp|].
        destruct (zmem 0 (dkeys (by_end_step values))) eqn:Em; cbn [negb] in Hp.
        * apply G in Hp. unfold dgetx in H3. rewrite Hp in H3. now injection H3 as <-.
        * subst p. apply zmem_nIn in Em. destruct (I2 Em) as [J1 J2]. rewrite E0 in H3. unfold dgetx in H3.
          destruct (V2 0) as [[_ [_ N]]|E2].
          -- rewrite (proj1 (N eq_refl)) in H3. now injection H3 as <-.
          -- rewrite E2, B0 in H3. destruct (ac_zero st); [rewrite (J1 eq_refl) in H3; now injection H3 as <-|].
             rewrite (J2 eq_refl) in H3. discriminate.
      + cbn [andb] in *. apply G in Hp. unfold dgetx in H3. rewrite Hp in H3. now injection H3 as <-.
  Qed.

  Lemma accumulation_cells stype input unit s half force start end_ sec values out :
    let g := aggr_init stype input unit s "accumulation" half force start end_ sec in
    0 < s -> 0 <= start -> do_manipulation_with add sub mul div g values = Ok out ->
    exists k0 a0 rest, values = (k0, a0) :: rest /\ forall k a, In (k, a) out ->
      s_start k = s_end k - s /\
      forall c p, dget Z.eqb (by_end_step values) (s_end k) = Some c -> start_field values (asize a0) force (s_start k) p ->
        acc_out_with add sub mul div (asize a0) unit s c p = Ok a.
  Proof.
    intros g Hs Hst H. unfold do_manipulation_with in H. cbn [a_type g aggr_init] in H. rewrite String.eqb_refl in H.
    unfold accumulation_with in H. apply rbind_ok in H as [st [H Ho]]. injection Ho as <-.
    unfold accumulation_run_with in H. apply rbind_ok in H as [[k0 a0] [H0 H]]. apply rbind_ok in H as [its [Hi H]].
    destruct values as [|kv rest]; [discriminate|]. injection H0 as ->. exists k0, a0, rest. split; [reflexivity|].
    apply (foldM_inv _ (acc_inv g ((k0, a0) :: rest) (asize a0) (s_res k0) (s_level k0))) in H.
    - destruct H as [_ [_ H]]. exact H.
    - intros st1 x st2 Hx. apply acc_body_inv; [|exact Hs].
      rewrite py_range_pos_ok in Hi by exact Hs. injection Hi as <-. apply in_map_iff in Hx as [j [<- _]].
      unfold g. cbn [a_start a_step aggr_init]. destruct (Z.eqb_spec start 0); nia.
    - split; [intros t c Hc; exact Hc|]. split.
      + intro Hn. split; [discriminate|]. intros _. cbn [ac_v]. now apply (dget_None Z.eqb Zeqb_spec').
      + intros k a [].
  Qed.
End With.
