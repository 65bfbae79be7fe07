(** * Property C120: unit conversions in double precision
    (Numexpr.v, Converter.v). Vocabulary: Spec_Numexpr.v, Spec_Convert.v,
    [cell] of Spec_Aggregation.v. *)
From Coq Require Import Lia List Qcabs.
From Verif Require Import Base Num PyStr Float64 Converter Aggregator Numexpr Spec_Aggregation Spec_Convert Spec_Numexpr
  Num_P Aggregator_P Float64_P Float_Agg_P Numexpr_P Props_Manip.
Local Open Scope string_scope.
Local Open Scope Z_scope.

(** the formulas shipped, parsed *)
Lemma shipped_formula f a b : In (f, (a, b)) shipped ->
  contains "x=" (replace "x=" "" f) = false /\ f = ("x=" +++ replace "x=" "" f)%string /\ replace "x=" "" f <> "x" /\
  exists e, ev64 (replace "x=" "" f) = Some (fun v => eval64 (fun _ => v) e) /\
    forall q, (Qcabs q <= ZQ (2 ^ 900))%Qc -> round64 q = q -> exists r, eval64 (fun _ => Fin q) e = Fin r /\
      (Qcabs (r - (a * q + b)) <= / ZQ (2 ^ 51) * (Qcabs (a * q) + Qcabs b) + / ZQ (2 ^ 1073))%Qc /\
      (b = 0%Qc -> q = 0%Qc -> r = 0%Qc).
Proof.
  assert (Hpos : (0 <= / ZQ (2 ^ 1073))%Qc) by (vm_compute; discriminate).
  assert (HM : forall k k' q, (Qcabs k <= ZQ (2 ^ 10))%Qc -> (Qcabs (k' - k) <= / ZQ (2 ^ 53) * Qcabs k)%Qc -> (Qcabs q <= ZQ (2 ^ 900))%Qc ->
    exists r, fmul (Fin q) (Fin k') = Fin r /\
      (Qcabs (r - (k * q + 0)) <= / ZQ (2 ^ 51) * (Qcabs (k * q) + Qcabs 0) + / ZQ (2 ^ 1073))%Qc /\ (0%Qc = 0%Qc -> q = 0%Qc -> r = 0%Qc)).
  { intros k k' q Bk Hk Bq. destruct (mul_close q k k' Bq Bk Hk) as [r [E1 [E2 E3]]]. exists r. split; [exact E1|]. split; [|auto].
    replace (k * q + 0)%Qc with (q * k)%Qc by ring. replace (k * q)%Qc with (q * k)%Qc by ring.
    replace (Qcabs 0) with 0%Qc by (apply Qc_is_canon; reflexivity). replace (Qcabs (q * k) + 0)%Qc with (Qcabs (q * k)) by ring. exact E2. }
  assert (HN : forall m d, (Qcabs (dec m d) <= ZQ (2 ^ 10))%Qc -> nround (Fin (dec m d)) = Fin (round64 (dec m d))).
  { intros m d B. apply (nround_small _ 10); [lia|]. apply QR_le in B. rewrite QR_abs, QR_ZQ, <- bpow_pow2 in B by lia. exact B. }
  assert (EV : forall t e, parse_text t = Some e -> only_names ["x"] e = true -> ev64 t = Some (fun v => eval64 (fun _ => v) e)).
  { intros t e P N. unfold ev64. now rewrite P, N. }
  intro H. cbn [shipped In] in H.
  destruct H as [H|[H|[H|[H|[H|[H|[]]]]]]]; apply pair_equal_spec in H as [<- H]; apply pair_equal_spec in H as [<- <-];
    (split; [reflexivity|]); (split; [reflexivity|]); (split; [discriminate|]).
  - exists (EBin Sub (EVar "x") (ENum 27315 2 true)). split; [apply EV; vm_compute; reflexivity|]. intros q Bq Rq. cbn [eval64].
    rewrite HN by (vm_compute; discriminate).
    destruct (add_close q (- dec 27315 2) (- round64 (dec 27315 2)) Bq) as [E1 E2];
      [vm_compute; discriminate|exact Rq|rewrite round64_opp, round64_idem; reflexivity|vm_compute; discriminate|].
    exists (round64 (q + - round64 (dec 27315 2))). split; [exact E1|]. split.
    + replace (1 * q + - (ZQ 27315 / ZQ 100))%Qc with (q + - dec 27315 2)%Qc.
      * replace (Qcabs (1 * q))%Qc with (Qcabs q) by (f_equal; ring). replace (Qcabs (- (ZQ 27315 / ZQ 100))) with (Qcabs (- dec 27315 2)) by reflexivity.
        apply Qcle_trans with (1 := E2). rewrite <- (Qcplus_0_r (_ * _)) at 1. apply Qcplus_le_compat; [apply Qcle_refl|exact Hpos].
      * change (ZQ 27315 / ZQ 100)%Qc with (dec 27315 2). ring.
    + intro E. exfalso. apply (f_equal this) in E. vm_compute in E. discriminate.
  - exists (EBin Mul (EVar "x") (ENum 1000 0 false)). split; [apply EV; vm_compute; reflexivity|]. intros q Bq Rq. cbn [eval64].
    rewrite HN by (vm_compute; discriminate). apply HM; [vm_compute; discriminate|vm_compute; discriminate|exact Bq].
  - exists (EBin Mul (ENum 1000 0 false) (EVar "x")). split; [apply EV; vm_compute; reflexivity|]. intros q Bq Rq. cbn [eval64].
    rewrite HN by (vm_compute; discriminate).
    replace (fmul (Fin (round64 (dec 1000 0))) (Fin q)) with (fmul (Fin q) (Fin (round64 (dec 1000 0)))) by (unfold fmul; cbn [nmul]; do 2 f_equal; ring).
    apply HM; [vm_compute; discriminate|vm_compute; discriminate|exact Bq].
  - exists (EBin Mul (ENeg (EVar "x")) (ENum 1000 0 false)). split; [apply EV; vm_compute; reflexivity|]. intros q Bq Rq. cbn [eval64 nopp].
    rewrite HN by (vm_compute; discriminate).
    replace (fmul (Fin (- q)) (Fin (round64 (dec 1000 0)))) with (fmul (Fin q) (Fin (- round64 (dec 1000 0)))) by (unfold fmul; cbn [nmul]; do 2 f_equal; ring).
    apply HM; [vm_compute; discriminate|vm_compute; discriminate|exact Bq].
  - exists (EBin Mul (EVar "x") (ENeg (ENum 353 4 true))). split; [apply EV; vm_compute; reflexivity|]. intros q Bq Rq. cbn [eval64].
    rewrite HN by (vm_compute; discriminate). apply HM; [vm_compute; discriminate|vm_compute; discriminate|exact Bq].
  - exists (EBin Mul (EVar "x") (ENeg (ENum 147 5 true))). split; [apply EV; vm_compute; reflexivity|]. intros q Bq Rq. cbn [eval64].
    rewrite HN by (vm_compute; discriminate). apply HM; [vm_compute; discriminate|vm_compute; discriminate|exact Bq].
Qed.

(** ** C120: a shipped conversion gives, in every cell that is not missing, the
    value of its line up to a relative error of 2^-51 (of the parts, when
    there is a constant) and 2^-1073; zero stays exactly zero when there is no
    constant *)
Theorem C120_conversions : forall f a b cut mv x, In (f, (a, b)) shipped ->
  exists out, convert ev64 (set_missing_value (converter_new (Some f) cut) mv) x = Ok out /\ asize out = asize x /\
    forall i q, cell x i q -> ~ is_missing mv (Fin q) -> round64 q = q -> (Qcabs q <= ZQ (2 ^ 900))%Qc ->
    exists r, cell out i r /\
      (Qcabs (r - (a * q + b)) <= / ZQ (2 ^ 51) * (Qcabs (a * q) + Qcabs b) + / ZQ (2 ^ 1073))%Qc /\
      (b = 0%Qc -> q = 0%Qc -> r = 0%Qc).
Proof.
  intros f a b cut mv x Hf. destruct (shipped_formula f a b Hf) as [Hc [Ef [Hx [e [He Hq]]]]].
  destruct (C17_conversion ev64 (replace "x=" "" f) _ cut mv x Hc Hx He) as [out [Ho [Hs Hcells]]].
  exists out. rewrite <- Ef in Ho. split; [exact Ho|]. split; [exact Hs|].
  intros i q Hi Hm Rq Bq. destruct (Hcells i (Fin q) Hi) as [_ [H _]]. destruct (Hq q Bq Rq) as [r [Er Hr]].
  exists r. split; [|exact Hr]. unfold cell. rewrite (H Hm), Er. reflexivity.
Qed.
Print Assumptions C120_conversions.

(** ** any conversion by numbers, whatever they are, keeps the order of the
    cells (or reverses it): it never exchanges two values, even by rounding *)
Theorem C120_order : forall text e g up a b ra rb,
  parse_text text = Some e -> monotone "x" up e -> ev64 text = Some g ->
  (a <= b)%Qc -> g (Fin a) = Fin ra -> g (Fin b) = Fin rb -> in_order up ra rb.
Proof.
  intros text e g up a b ra rb Hp Hm Hg Hab Ha Hb. unfold ev64 in Hg. rewrite Hp in Hg.
  destruct (only_names _ e); [|discriminate]. injection Hg as <-.
  exact (monotone_order "x" (fun _ => Fin a) (fun _ => Fin b) a b eq_refl eq_refl Hab up e Hm ra rb Ha Hb).
Qed.
Print Assumptions C120_order.

(** every shipped conversion is of this kind, rising when its factor is positive *)
Theorem C120_shipped_order : forall f a b, In (f, (a, b)) shipped -> exists e up, parse_text (replace "x=" "" f) = Some e /\
  monotone "x" up e /\ (up = true <-> (0 < a)%Qc).
Proof.
  intros f a b H. cbn [shipped In] in H.
  assert (P : forall q, (0 < q)%Qc -> (true = true <-> (0 < q)%Qc)) by (intros; split; auto).
  assert (N : forall q, (q <= 0)%Qc -> (false = true <-> (0 < q)%Qc)) by (intros q Hq; split; [discriminate|intro G; exfalso; exact (Qcle_not_lt _ _ Hq G)]).
  destruct H as [H|[H|[H|[H|[H|[H|[]]]]]]]; apply pair_equal_spec in H as [<- H]; apply pair_equal_spec in H as [<- <-].
  - exists (EBin Sub (EVar "x") (ENum 27315 2 true)), true. split; [vm_compute; reflexivity|]. split; [|apply P; reflexivity].
    eapply mono_sub_l; constructor.
  - exists (EBin Mul (EVar "x") (ENum 1000 0 false)), true. split; [vm_compute; reflexivity|]. split; [|apply P; reflexivity].
    eapply mono_mul_l; [constructor|constructor|vm_compute; discriminate].
  - exists (EBin Mul (ENum 1000 0 false) (EVar "x")), true. split; [vm_compute; reflexivity|]. split; [|apply P; reflexivity].
    eapply mono_mul_r; [constructor|constructor|vm_compute; discriminate].
  - exists (EBin Mul (ENeg (EVar "x")) (ENum 1000 0 false)), false. split; [vm_compute; reflexivity|]. split; [|apply N; vm_compute; discriminate].
    eapply (mono_mul_l "x" false); [apply (mono_neg "x" true); constructor|constructor|vm_compute; discriminate].
  - exists (EBin Mul (EVar "x") (ENeg (ENum 353 4 true))), false. split; [vm_compute; reflexivity|]. split; [|apply N; vm_compute; discriminate].
    eapply (mono_mul_l' "x" true); [constructor|constructor; constructor|vm_compute; discriminate].
  - exists (EBin Mul (EVar "x") (ENeg (ENum 147 5 true))), false. split; [vm_compute; reflexivity|]. split; [|apply N; vm_compute; discriminate].
    eapply (mono_mul_l' "x" true); [constructor|constructor; constructor|vm_compute; discriminate].
Qed.
Print Assumptions C120_shipped_order.

(** two temperatures and a missing cell; the formula of another text *)
Example C120_nonvacuous :
  In ("x=x-273.15", (1, - (ZQ 27315 / ZQ 100)))%Qc shipped /\
  (exists q, round64 q = q /\ (Qcabs q <= ZQ (2 ^ 900))%Qc /\ ~ is_missing (nint 9999) (Fin q) /\ cell (Nd [nint 9999; Fin q]) 1 q) /\
  parse_text "100 - (x/9.81)*0.5" = Some (EBin Sub (ENum 100 0 false) (EBin Mul (EBin Div (EVar "x") (ENum 981 2 true)) (ENum 5 1 true))) /\
  monotone "x" false (EBin Sub (ENum 100 0 false) (EBin Mul (EBin Div (EVar "x") (ENum 981 2 true)) (ENum 5 1 true))).
Proof.
  split; [left; reflexivity|]. split.
  - exists (round64 (ZQ 28015 / ZQ 100)). split; [apply round64_idem|]. split; [vm_compute; discriminate|]. split; [|reflexivity].
    unfold is_missing. vm_compute. discriminate.
  - split; [vm_compute; reflexivity|]. apply (mono_sub_r "x" true _ _ (ZQ 100 / ZQ (10 ^ Z.of_nat 0))); [|constructor].
    eapply mono_mul_l; [|constructor|vm_compute; discriminate]. eapply mono_div; [constructor|constructor|reflexivity].
Qed.
