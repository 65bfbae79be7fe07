(** * Properties C112-C114: interpolation in double precision (Float_Sum.v).
    The additions may be done in any order and fused with multiplications.
    Vocabulary: Spec_Float2.v, Spec_Scipy.v (inverse_square). *)
From Coq Require Import Lia List Qcabs Permutation.
From Coq Require Rdefinitions Qreals.
From Verif Require Import Base Num Float64 Interp Scipy Float_Sum Spec_Aggregation Spec_Float2 Spec_Scipy
  Base_P Num_P Interp_P3 Scipy_P Float64_P Float_Agg_P Float_Weights_P2 Float_Weights_P3 Float_Weights_P4.
From Verif Require Spec_Interp.
Local Open Scope string_scope.
Local Open Scope Z_scope.

Lemma dot_same w v : dot w v = Spec_Interp.dot w v.
Proof. unfold dot. revert v. induction w as [|x w IH]; intros [|y v]; cbn [combine map Qsum fold_right fst snd Spec_Interp.dot]; try reflexivity. fold (Qsum (map (fun p => fst p * snd p)%Qc (combine w v))). now rewrite IH. Qed.

(** ** C112: interpolated values *)
(** whatever the order of the additions: the exact value up to 2^-52 of the sum
    of the absolute products, for each weight; the sign is kept *)
Theorem C112_cell : forall ws xs r, List.length ws = List.length xs -> short ws -> Forall (double 450) ws -> Forall (double 450) xs ->
  weighted_row64 (map Fin ws) (map Fin xs) r ->
  exists q e, r = Fin q /\ weighted_row (map Fin ws) (map Fin xs) = Ok (Fin e) /\
    (Qcabs (q - e) <= count ws * (half_to 52 * dot_abs ws xs + half_to 1074))%Qc /\
    (Forall (fun p => 0 <= fst p * snd p)%Qc (combine ws xs) -> (0 <= q)%Qc) /\
    (Forall (fun p => fst p * snd p <= 0)%Qc (combine ws xs) -> (q <= 0)%Qc).
Proof.
  intros ws xs r Hl Hs Hw Hx Hr. destruct (cell64 ws xs r Hl Hs Hw Hx Hr) as [q [-> [_ [B [P M]]]]].
  exists q, (dot ws xs). split; [reflexivity|]. split; [rewrite weighted_row_ok, dot_same by exact Hl; reflexivity|]. split; [exact B|]. split; assumption.
Qed.
Print Assumptions C112_cell.

(** a value that is not a number gives none, whatever the weights *)
Theorem C112_nan : forall w vals r, weighted_row64 w vals r -> In NaN vals -> r = NaN.
Proof.
  intros w vals r [Hl He] Hn. apply (einsum_nan _ _ He). clear He. revert w Hl. induction vals as [|x vals IH]; intros [|y w] Hl; cbn [List.length] in Hl; try lia; [destruct Hn|].
  cbn [combine]. destruct Hn as [-> |Hn]; [left; reflexivity|right; apply IH; [exact Hn|lia]].
Qed.
Print Assumptions C112_nan.

(** rounding does not make an interpolation fail or succeed *)
Theorem C112_same_failures : forall v mv table, (exists out, apply_weighted v mv table = Ok out) <-> (exists out, apply_weighted64 v mv table out).
Proof.
  intros v mv table. unfold apply_weighted, apply_weighted64.
  assert (Hrow : forall row, (exists x, (do vals <- mapM (py_index (append_mv v mv)) (snd row); weighted_row (fst row) vals) = Ok x) <->
    exists r, exists vals, mapM (py_index (append_mv v mv)) (snd row) = Ok vals /\ weighted_row64 (fst row) vals r).
  { intros [w ks]. cbn [fst snd]. split.
    - intros [x H]. apply rbind_ok in H as [vals [Hv H]]. unfold weighted_row in H. apply rbind_ok in H as [ps [H _]]. apply ew2_inv in H as [L _].
      destruct (einsum_exists (combine w vals)) as [r Hr]. exists r, vals. split; [exact Hv|]. split; assumption.
    - intros [r [vals [Hv [L _]]]]. rewrite Hv. cbn [rbind]. unfold weighted_row. rewrite ew2_ok by exact L. cbn [rbind]. eexists. reflexivity. }
  split; intros [out H].
  - revert out H. induction table as [|row table IH]; intros out H; [exists []; constructor|]. cbn [mapM] in H. apply rbind_ok in H as [x [Hx H]]. apply rbind_ok in H as [xs [Hxs H]].
    destruct (proj1 (Hrow row) (ex_intro _ x Hx)) as [r Hr]. destruct (IH xs Hxs) as [o Ho]. exists (r :: o). now constructor.
  - induction H as [|row r table out Hr _ [o IH]]; [exists []; reflexivity|]. destruct (proj2 (Hrow row) (ex_intro _ r Hr)) as [x Hx].
    exists (x :: o). cbn [mapM]. rewrite Hx. cbn [rbind]. rewrite IH. reflexivity.
Qed.
Print Assumptions C112_same_failures.

(** ** C113: the weights stored in tables *)
(** weights are divided by their sum, added in any order: each is between 0 and
    1, it is its share up to n times 2^-51, and together they give 1 up to n
    times 2^-50 *)
Theorem C113_weights : forall w out, Forall (double 900) w -> Forall (fun x => 0 <= x)%Qc w -> Exists (fun x => 0 < x)%Qc w -> short w ->
  normalised64 (map Fin w) out ->
  exists ws, out = map Fin ws /\
    Forall2 (fun x y => (0 <= y <= 1)%Qc /\ (Qcabs (y - x / Qsum w) <= count w * half_to 51 * (x / Qsum w) + half_to 1074)%Qc) w ws /\
    (Qcabs (Qsum ws - 1) <= count w * half_to 50)%Qc.
Proof. exact weights_Qc. Qed.
Print Assumptions C113_weights.

(** inverse distance weights: proportional to the inverse squares of the
    distances, up to n times 2^-49 *)
Theorem C113_invdist : forall m c d ds out, map fst c = map Fin (d :: ds) -> short (d :: ds) ->
  Forall (fun x => round64 x = x /\ (half_to 400 <= x <= ZQ (2 ^ 400))%Qc) (d :: ds) ->
  (round64 (1 / ZQ (10 ^ 10)) < d)%Qc /\ (d <= m)%Qc ->
  invdist_weights64 (Fin m) c out ->
  exists es ws, inverse_square (d :: ds) es /\ invdist_weights (Fin m) c = map Fin es /\ out = map Fin ws /\
    Forall2 (fun e y => (0 <= y <= 1)%Qc /\ (Qcabs (y - e) <= count (d :: ds) * half_to 49 * e + half_to 1074)%Qc) es ws.
Proof. exact invdist_Qc. Qed.
Print Assumptions C113_invdist.

(** ** C114: interpolated values stay within the range of the values used *)
Theorem C114_between : forall w out v r lo hi M,
  Forall (double 900) w -> Forall (fun x => 0 <= x)%Qc w -> Exists (fun x => 0 < x)%Qc w -> short w -> normalised64 (map Fin w) out ->
  List.length v = List.length w -> Forall (double 450) v -> Forall (fun x => lo <= x <= hi)%Qc v -> Forall (fun x => Qcabs x <= M)%Qc v ->
  weighted_row64 out (map Fin v) r ->
  exists q, r = Fin q /\ (lo - count w * (half_to 50 * M + half_to 1074) <= q <= hi + count w * (half_to 50 * M + half_to 1074))%Qc.
Proof. exact between64. Qed.
Print Assumptions C114_between.
(** not exactly: two stations at distances 0.1 and 0.6 with the value 3 give more
    than 3 *)
Definition C114_exact : Prop := forall w out v r lo hi,
  Forall (double 900) w -> Forall (fun x => 0 <= x)%Qc w -> Exists (fun x => 0 < x)%Qc w -> short w -> normalised64 (map Fin w) out ->
  List.length v = List.length w -> Forall (double 450) v -> Forall (fun x => lo <= x <= hi)%Qc v ->
  weighted_row64 out (map Fin v) r -> exists q, r = Fin q /\ (lo <= q <= hi)%Qc.

(** four stations, three of them in 0.3 and one in 0.7, at distances that are no
    short binary fractions *)
Definition fl (a b : Z) : Qc := round64 (ZQ a / ZQ b)%Qc.
Definition ex_ds : list Qc := [fl 1 10; fl 2 10; fl 3 10; fl 7 10].
Definition ex_w : list num := map (fun d => inv_square64 (Fin d)) ex_ds.
Definition ex_s : num := fadd (fadd (nth 3 ex_w NaN) (nth 1 ex_w NaN)) (fadd (nth 0 ex_w NaN) (nth 2 ex_w NaN)).
Definition ex_out : list num := map (fun x => fdiv x ex_s) ex_w.
Lemma perm4 {A} (a b c d : A) : Permutation [a; b; c; d] [d; b; a; c].
Proof. apply (Permutation_cons_app [d; b] [c] a), (Permutation_cons_app [d] [c] b), perm_swap. Qed.
Lemma two_terms x y : sum_any [x; y] (fadd x y).
Proof. apply (sa_add _ [x] [y]); [reflexivity|constructor|constructor]. Qed.
Lemma ex_sum : sum_any ex_w ex_s.
Proof.
  apply (sa_add _ [nth 3 ex_w NaN; nth 1 ex_w NaN] [nth 0 ex_w NaN; nth 2 ex_w NaN]).
  - exact (perm4 _ _ _ _).
  - apply two_terms.
  - apply two_terms.
Qed.
Example C113_nonvacuous : let c := combine (map Fin ex_ds) [5; 6; 7; 8] in map fst c = map Fin ex_ds /\ short ex_ds /\
  Forall (fun x => round64 x = x /\ (half_to 400 <= x <= ZQ (2 ^ 400))%Qc) ex_ds /\ ((round64 (1 / ZQ (10 ^ 10)) < fl 1 10)%Qc /\ (fl 1 10 <= fl 2 1)%Qc) /\
  invdist_weights64 (Fin (fl 2 1)) c ex_out.
Proof.
  cbv zeta. split; [reflexivity|]. split; [vm_compute; split; discriminate|]. split.
  { repeat (constructor; [split; [apply round64_idem|split; vm_compute; discriminate]|]). constructor. }
  split; [split; [vm_compute; reflexivity|vm_compute; discriminate]|].
  unfold invdist_weights64. assert (E1 : leb_num (first_dist (combine (map Fin ex_ds) [5; 6; 7; 8])) eps10_64 = false) by (vm_compute; reflexivity).
  assert (E2 : leb_num (first_dist (combine (map Fin ex_ds) [5; 6; 7; 8])) (Fin (fl 2 1)) = true) by (vm_compute; reflexivity). rewrite E1, E2.
  exists ex_s. split; [exact ex_sum|reflexivity].
Qed.

Definition two_w : list Qc := map (fun d => match inv_square64 (Fin d) with Fin q => q | _ => 0%Qc end) [fl 1 10; fl 6 10].
Definition two_s : num := fadd (Fin (nth 0 two_w 0%Qc)) (Fin (nth 1 two_w 0%Qc)).
Definition two_out : list num := map (fun x => fdiv (Fin x) two_s) two_w.
Definition two_r : num := fadd (fmul (nth 0 two_out NaN) (nint 3)) (fmul (nth 1 two_out NaN) (nint 3)).
Lemma two_weights : Forall (double 900) two_w /\ Forall (fun x => 0 <= x)%Qc two_w /\ Exists (fun x => 0 < x)%Qc two_w /\ short two_w /\ normalised64 (map Fin two_w) two_out.
Proof.
  split; [repeat (constructor; [split; [apply Qc_is_canon; vm_compute; reflexivity|vm_compute; discriminate]|]); constructor|].
  split; [repeat (constructor; [vm_compute; discriminate|]); constructor|]. split; [left; vm_compute; reflexivity|]. split; [split; vm_compute; discriminate|].
  exists two_s. split; [apply two_terms|]. unfold two_out. rewrite map_map. reflexivity.
Qed.
Lemma two_value : List.length [ZQ 3; ZQ 3] = List.length two_w /\ Forall (double 450) [ZQ 3; ZQ 3] /\ weighted_row64 two_out (map Fin [ZQ 3; ZQ 3]) two_r.
Proof.
  split; [reflexivity|]. split; [repeat (constructor; [split; [apply Qc_is_canon; vm_compute; reflexivity|vm_compute; discriminate]|]); constructor|].
  split; [reflexivity|]. exact (ea_add _ [(nth 0 two_out NaN, nint 3)] [(nth 1 two_out NaN, nint 3)] _ _ (Permutation_refl _) (ea_prod _ _) (ea_prod _ _)).
Qed.
Theorem C114_exact_refuted : ~ C114_exact.
Proof.
  intro F. destruct two_weights as [H1 [H2 [H3 [H4 H5]]]]. destruct two_value as [V1 [V2 V3]].
  destruct (F two_w two_out [ZQ 3; ZQ 3] two_r (ZQ 3) (ZQ 3) H1 H2 H3 H4 H5 V1 V2 ltac:(repeat constructor; apply Qcle_refl) V3) as [q [E [_ Hle]]].
  assert (Hx : nltb (Fin (ZQ 3)) two_r = true) by (vm_compute; reflexivity). rewrite E in Hx. cbn [nltb] in Hx. apply Qc_ltb_spec in Hx. exact (Qclt_not_le _ _ Hx Hle).
Qed.
Print Assumptions C114_exact_refuted.
Example C114_nonvacuous : exists w out v r, Forall (double 900) w /\ Forall (fun x => 0 <= x)%Qc w /\ Exists (fun x => 0 < x)%Qc w /\ short w /\ normalised64 (map Fin w) out /\
  List.length v = List.length w /\ Forall (double 450) v /\ weighted_row64 out (map Fin v) r /\ r <> nint 3.
Proof.
  destruct two_weights as [H1 [H2 [H3 [H4 H5]]]]. destruct two_value as [V1 [V2 V3]].
  exists two_w, two_out, [ZQ 3; ZQ 3], two_r. repeat (split; [assumption|]). intro E. assert (Hx : nltb (nint 3) two_r = true) by (vm_compute; reflexivity). rewrite E in Hx. vm_compute in Hx. discriminate.
Qed.
(** weights and values that give a rounded product, additions fused *)
Example C112_nonvacuous : exists r, weighted_row64 (map Fin [fl 1 10; fl 9 10]) (map Fin [fl 3 10; fl 7 10]) r /\ short [fl 1 10; fl 9 10] /\
  Forall (double 450) [fl 1 10; fl 9 10] /\ Forall (double 450) [fl 3 10; fl 7 10].
Proof.
  eexists. split; [|split; [split; vm_compute; discriminate|split; repeat (constructor; [split; [apply round64_idem|vm_compute; discriminate]|]); constructor]].
  split; [reflexivity|]. exact (ea_fma _ [(Fin (fl 9 10), Fin (fl 7 10))] (Fin (fl 1 10)) (Fin (fl 3 10)) _ (Permutation_refl _) (ea_prod _ _)).
Qed.
