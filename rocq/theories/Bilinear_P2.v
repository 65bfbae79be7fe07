(** * Bilinear_P2: order of the corners *)
From Verif Require Import Base Num Strings Xr Adw Bilinear Spec_Bilinear Bilinear_P.
From Coq Require Import Psatz Permutation Sorting.
Local Open Scope R_scope.

Definition corners (q : quad) : list corner := let '(a, b, c, d) := q in [a; b; c; d].
Lemma low_high_spec a b l h : low_high a b = (l, h) -> clat l <= clat h /\ (clat l = clat h -> l = a /\ h = b) /\ ((l = a /\ h = b) \/ (l = b /\ h = a)).
Proof. unfold low_high. destruct (leb_spec (clat a) (clat b)); intro E; inversion E; subst; (split; [lra|]); (split; [intro Q; try lra; split; reflexivity|]); [left|right]; split; reflexivity. Qed.
Lemma map_nthc cs : map (nthc cs) (seq 0 (List.length cs)) = cs.
Proof. unfold nthc. induction cs as [|c cs IH]; [reflexivity|]. cbn [List.length seq map nth]. f_equal. rewrite <- seq_shift, map_map. exact IH. Qed.
Lemma nth_map_key cs i : (i < List.length cs)%nat -> nth i (map sort_key cs) 0 = sort_key (nthc cs i).
Proof. intro H. unfold nthc. rewrite (nth_indep (map sort_key cs) 0 (sort_key (mkCorner 0 0 0))) by (now rewrite map_length). apply map_nth. Qed.

(** the answer of argsort, as four corners *)
Lemma argsort4 (argsort : list R -> list nat) cs : List.length cs = 4%nat -> is_argsort (map sort_key cs) (argsort (map sort_key cs)) ->
  exists a b c d, map (fun i => nthc cs (nth i (argsort (map sort_key cs)) O)) [0; 1; 2; 3]%nat = [a; b; c; d] /\ Permutation cs [a; b; c; d] /\ sort_key a <= sort_key b <= sort_key c /\ sort_key c <= sort_key d.
Proof.
  intros L [P S]. rewrite map_length, L in P. set (o := argsort (map sort_key cs)) in *. clearbody o.
  assert (Lo : List.length o = 4%nat) by (rewrite <- (Permutation_length P); reflexivity). destruct o as [|i [|j [|k [|l [|]]]]]; try discriminate Lo.
  exists (nthc cs i), (nthc cs j), (nthc cs k), (nthc cs l). split; [reflexivity|]. split.
  - rewrite <- (map_nthc cs) at 1. rewrite L. change [nthc cs i; nthc cs j; nthc cs k; nthc cs l] with (map (nthc cs) [i; j; k; l]). apply Permutation_map. exact P.
  - assert (B : forall x, In x [i; j; k; l] -> (x < List.length cs)%nat). { intros x Hx. apply (Permutation_in _ (Permutation_sym P)) in Hx. apply in_seq in Hx. lia. }
    inversion_clear S as [|? ? S1 F1]. inversion_clear S1 as [|? ? S2 F2]. inversion_clear S2 as [|? ? S3 F3]. inversion_clear F1 as [|? ? G1 _]. inversion_clear F2 as [|? ? G2 _]. inversion_clear F3 as [|? ? G3 _].
    rewrite <- !(nth_map_key cs) by (apply B; cbn; tauto). lra.
Qed.
Lemma clockwise_spec argsort cs : List.length cs = 4%nat -> is_argsort (map sort_key cs) (argsort (map sort_key cs)) ->
  exists p1 p2 p3 p4, clockwise argsort cs = (p1, p2, p3, p4) /\ Permutation cs [p1; p2; p3; p4] /\ clat p1 <= clat p4 /\ clat p2 <= clat p3 /\
    sort_key p1 <= sort_key p2 /\ sort_key p1 <= sort_key p3 /\ sort_key p4 <= sort_key p2 /\ sort_key p4 <= sort_key p3 /\ (clat p1 = clat p4 -> sort_key p1 <= sort_key p4) /\ (clat p2 = clat p3 -> sort_key p2 <= sort_key p3).
Proof.
  intros L A. destruct (argsort4 argsort cs L A) as [a [b [c [d [E [P [K1 K2]]]]]]]. cbn [map] in E. unfold clockwise.
  assert (Ea : nthc cs (nth 0 (argsort (map sort_key cs)) O) = a) by congruence. assert (Eb : nthc cs (nth 1 (argsort (map sort_key cs)) O) = b) by congruence.
  assert (Ec : nthc cs (nth 2 (argsort (map sort_key cs)) O) = c) by congruence. assert (Ed : nthc cs (nth 3 (argsort (map sort_key cs)) O) = d) by congruence. clear E. cbn zeta. rewrite Ea, Eb, Ec, Ed.
  destruct (low_high a b) as [bl tl] eqn:E1. destruct (low_high c d) as [br tr] eqn:E2. apply low_high_spec in E1, E2. destruct E1 as [L1 [T1 E1]], E2 as [L2 [T2 E2]].
  exists bl, br, tr, tl. split; [reflexivity|].
  assert (Q1 : Permutation [a; b] [bl; tl]) by (destruct E1 as [[-> ->]|[-> ->]]; [reflexivity|apply perm_swap]).
  assert (Q2 : Permutation [c; d] [br; tr]) by (destruct E2 as [[-> ->]|[-> ->]]; [reflexivity|apply perm_swap]).
  split.
  - rewrite P. change [a; b; c; d] with ([a; b] ++ [c; d])%list. rewrite (Permutation_app Q1 Q2). cbn [app]. change [bl; tl; br; tr] with (bl :: [tl; br; tr]). apply perm_skip. change [tl; br; tr] with (tl :: [br; tr]). change [br; tr; tl] with ([br; tr] ++ [tl])%list. apply Permutation_cons_append.
  - split; [exact L1|]. split; [exact L2|]. assert (T1' : clat bl = clat tl -> sort_key bl <= sort_key tl) by (intro Q; destruct (T1 Q) as [-> ->]; lra). assert (T2' : clat br = clat tr -> sort_key br <= sort_key tr) by (intro Q; destruct (T2 Q) as [-> ->]; lra).
    destruct E1 as [[-> ->]|[-> ->]], E2 as [[-> ->]|[-> ->]]; do 4 (split; [lra|]); split; assumption.
Qed.

(** an axis-parallel rectangle of any proportions *)
Definition rectangle (lat0 lat1 lon0 lon1 : R) (cs : list corner) : Prop := Permutation (map xy cs) [(lat0, lon0); (lat0, lon1); (lat1, lon0); (lat1, lon1)].
Lemma xy_key c : sort_key c = snd (xy c) * 1000 + fst (xy c). Proof. reflexivity. Qed.
Lemma clockwise_rectangle argsort cs lat0 lat1 lon0 lon1 : lat0 < lat1 -> lon0 < lon1 -> rectangle lat0 lat1 lon0 lon1 cs -> is_argsort (map sort_key cs) (argsort (map sort_key cs)) ->
  exists p1 p2 p3 p4, clockwise argsort cs = (p1, p2, p3, p4) /\ Permutation cs [p1; p2; p3; p4] /\ xy p1 = (lat0, lon0) /\ xy p3 = (lat1, lon1) /\
    ((xy p2 = (lat0, lon1) /\ xy p4 = (lat1, lon0) /\ lat1 - lat0 <= 1000 * (lon1 - lon0)) \/ (xy p2 = (lat1, lon0) /\ xy p4 = (lat0, lon1) /\ 1000 * (lon1 - lon0) <= lat1 - lat0)).
Proof.
  intros Hlat Hlon HR A. assert (L : List.length cs = 4%nat) by (apply Permutation_length in HR; rewrite map_length in HR; exact HR).
  destruct (clockwise_spec argsort cs L A) as [p1 [p2 [p3 [p4 [E [P [L1 [L2 [K1 [K2 [K3 [K4 [T1 T2]]]]]]]]]]]]]. exists p1, p2, p3, p4. split; [exact E|]. split; [exact P|].
  assert (Q : Permutation [xy p1; xy p2; xy p3; xy p4] [(lat0, lon0); (lat0, lon1); (lat1, lon0); (lat1, lon1)]).
  { rewrite <- HR. change [xy p1; xy p2; xy p3; xy p4] with (map xy [p1; p2; p3; p4]). apply Permutation_map. symmetry. exact P. }
  change (clat p1) with (fst (xy p1)) in L1. change (clat p4) with (fst (xy p4)) in L1. change (clat p2) with (fst (xy p2)) in L2. change (clat p3) with (fst (xy p3)) in L2. change (fst (xy p1) = fst (xy p4) -> sort_key p1 <= sort_key p4) in T1. change (fst (xy p2) = fst (xy p3) -> sort_key p2 <= sort_key p3) in T2. rewrite !xy_key in *.
  assert (I : forall x, In x [xy p1; xy p2; xy p3; xy p4] -> x = (lat0, lon0) \/ x = (lat0, lon1) \/ x = (lat1, lon0) \/ x = (lat1, lon1)).
  { intros x Hx. apply (Permutation_in _ Q) in Hx. cbn in Hx. intuition. }
  assert (ND : NoDup [xy p1; xy p2; xy p3; xy p4]).
  { apply (Permutation_NoDup (Permutation_sym Q)). repeat constructor; cbn; intros H; repeat match goal with H : _ \/ _ |- _ => destruct H as [H|H] end; try (injection H; intros; lra); try contradiction. }
  assert (I1 := I (xy p1) (or_introl eq_refl)). assert (I2 := I (xy p2) (or_intror (or_introl eq_refl))). assert (I3 := I (xy p3) (or_intror (or_intror (or_introl eq_refl)))). assert (I4 := I (xy p4) (or_intror (or_intror (or_intror (or_introl eq_refl))))).
  inversion_clear ND as [|? ? N1 ND1]. inversion_clear ND1 as [|? ? N2 ND2]. inversion_clear ND2 as [|? ? N3 _]. cbn in N1, N2, N3.
  clear - Hlat Hlon L1 L2 T1 T2 K1 K2 K3 K4 I1 I2 I3 I4 N1 N2 N3. set (a := xy p1) in *. set (b := xy p2) in *. set (c := xy p3) in *. set (d := xy p4) in *. clearbody a b c d.
  destruct I1 as [-> | [-> | [-> | ->]]], I2 as [-> | [-> | [-> | ->]]]; try (exfalso; apply N1; auto; fail);
  destruct I3 as [-> | [-> | [-> | ->]]]; try (exfalso; apply N1; auto; fail); try (exfalso; apply N2; auto; fail);
  destruct I4 as [-> | [-> | [-> | ->]]]; try (exfalso; apply N1; auto; fail); try (exfalso; apply N2; auto; fail); try (exfalso; apply N3; auto; fail); cbn [fst snd] in *; try lra; try (specialize (T1 eq_refl)); try (specialize (T2 eq_refl)); try lra.
  - split; [reflexivity|]. split; [reflexivity|]. left. repeat split; lra.
  - split; [reflexivity|]. split; [reflexivity|]. right. repeat split; lra.
Qed.
