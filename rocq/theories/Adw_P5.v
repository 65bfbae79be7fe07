(** * Adw_P5: the three decays; the ten largest *)
From Verif Require Import Base Num Xr Scipy Adw Spec_Adw Base_P Num_P Adw_P Adw_P2 Adw_P3 Adw_P4.
From Coq Require Import Sorting.Sorted Sorting.Permutation.
Local Open Scope R_scope.

Lemma exp_pow4 x : exp (- x * 4) = exp (- x) ^ 4.
Proof. replace (- x * 4) with (- x + (- x + (- x + (- x + 0)))) by ring. rewrite !exp_plus, exp_0. cbn [pow]. ring. Qed.
Definition decayR (cdd d : R) : R := if leb d cdd then exp (- d * 4 / cdd) else 0.
Lemma decayR_spec cdd d : decay cdd d (decayR cdd d).
Proof.
  unfold decay, decayR. destruct (leb d cdd) eqn:E; [apply leb_spec in E|apply leb_false in E]; split; intro H; try lra.
  rewrite <- exp_pow4. f_equal. unfold Rdiv. ring.
Qed.
Lemma decayR_nonneg cdd d : 0 <= decayR cdd d. Proof. unfold decayR. destruct (leb _ _); [left; apply exp_pos|lra]. Qed.
Lemma decayR_pos cdd d : d <= cdd -> 0 < decayR cdd d. Proof. intro H. unfold decayR. rewrite (proj2 (leb_spec _ _) H). apply exp_pos. Qed.
(** strictly decreasing within the cdd *)
Lemma decayR_decreasing cdd d d' : 0 < cdd -> d < d' -> d <= cdd -> decayR cdd d' < decayR cdd d.
Proof.
  intros Hc Hd Hin. unfold decayR. rewrite (proj2 (leb_spec _ _) Hin). destruct (leb d' cdd); [|apply exp_pos]. apply exp_increasing.
  unfold Rdiv. apply Rmult_lt_compat_r; [now apply Rinv_0_lt_compat|]. lra.
Qed.
Lemma hofstra_s_far cdd ds : cdd < at_ ds 2 -> hofstra_s cdd ds = map XF (repeat 0 (List.length ds)).
Proof. intro H. unfold hofstra_s. change nthR with at_. rewrite (proj2 (gtb_spec _ _) H). generalize ds. clear. induction ds as [|d ds IH]; [reflexivity|]. cbn [map List.length repeat]. now rewrite IH. Qed.
Lemma hofstra_s_near cdd ds : at_ ds 2 <= cdd -> hofstra_s cdd ds = map XF (map (decayR cdd) ds).
Proof. intro H. unfold hofstra_s. change nthR with at_. rewrite (proj2 (gtb_false _ _) H), map_map. apply map_ext. intro d. unfold decayR. destruct (leb d cdd); reflexivity. Qed.

(** ** the mixed method *)
Lemma Rpower_exp x m : Rpower (exp x) m = exp (x * m).
Proof. unfold Rpower. rewrite ln_exp. f_equal. ring. Qed.
Lemma mix_s_at_spec m ratio r d : ratio <> 1 -> 0 <= ratio <= 1 -> 0 < r -> mix_decay m ratio r d (mix_s_at m ratio r d).
Proof.
  intros H1 Hr Hp. unfold mix_decay, mix_s_at. rewrite !Rpower_exp. rewrite (Rmult_comm ratio r).
  destruct (leb d (r * ratio)) eqn:E; [apply leb_spec in E|apply leb_false in E].
  - split; [intros _; f_equal; unfold Rdiv; ring|]. split; intro; [lra|]. nra.
  - destruct (leb d r) eqn:E2; [apply leb_spec in E2|apply leb_false in E2]; (split; [intro; lra|]); (split; [intros [_ C]|intro C; try lra]).
    + replace (- m * ratio) with (- ratio * m) by ring. field. split; lra.
    + lra.
Qed.
Lemma mix_s_at_nonneg m ratio r d : 0 <= mix_s_at m ratio r d.
Proof.
  unfold mix_s_at. destruct (leb d (r * ratio)); [left; apply exp_pos|]. destruct (leb d r); [|lra]. apply Rmult_le_pos; [|apply pow2_ge_0].
  apply Rmult_le_pos; [|left; apply exp_pos]. destruct (Req_EM_T ((ratio - 1) ^ 2) 0) as [E|E]; [rewrite E; unfold Rdiv; rewrite Rinv_0; lra|].
  left. apply Rdiv_pos; [lra|]. pose proof (pow2_ge_0 (ratio - 1)). lra.
Qed.
Lemma mix_s_at_pos m ratio r d : 0 < r -> 0 <= ratio < 1 -> 0 <= d -> d < r -> 0 < mix_s_at m ratio r d.
Proof.
  intros Hr Ht Hd H. unfold mix_s_at. destruct (leb d (r * ratio)); [apply exp_pos|]. rewrite (proj2 (leb_spec d r)) by lra.
  apply Rmult_lt_0_compat; [apply Rmult_lt_0_compat; [|apply exp_pos]|].
  - apply Rdiv_pos; [lra|]. apply pow2_pos. lra.
  - apply pow2_pos. assert (d / r < 1); [|lra]. apply Rmult_lt_reg_r with r; [lra|]. unfold Rdiv. rewrite Rmult_assoc, Rinv_l; lra.
Qed.
Lemma mix_s_at_zero m ratio r d : 0 < r -> ratio < 1 -> r <= d -> mix_s_at m ratio r d = 0.
Proof.
  intros Hr Ht Hd. unfold mix_s_at. destruct (leb d (r * ratio)) eqn:E; [apply leb_spec in E; nra|]. destruct (leb d r) eqn:E2; [|reflexivity].
  apply leb_spec in E2. assert (Ed : d = r) by lra. rewrite Ed. unfold Rdiv at 2. rewrite Rinv_r by lra. ring.
Qed.
(** decreasing *)
Lemma mix_s_at_decreasing m ratio r d d' : 0 < r -> 0 <= ratio < 1 -> 0 <= m -> 0 <= d <= d' -> mix_s_at m ratio r d' <= mix_s_at m ratio r d.
Proof.
  intros Hr Ht Hm Hd.
  assert (Dr : forall x, x / r * r = x) by (intro x; unfold Rdiv; rewrite Rmult_assoc, Rinv_l; lra).
  assert (Mx : forall x y, x <= y -> exp (- y * m / r) <= exp (- x * m / r)).
  { intros x y Hxy. assert (L : - y * m / r <= - x * m / r) by (unfold Rdiv; apply Rmult_le_compat_r; [left; now apply Rinv_0_lt_compat|nra]). destruct L as [L|L]; [left; now apply exp_increasing|rewrite L; lra]. }
  (* the value of the quadratic part, relative to the value at the border *)
  assert (Q : forall x, r * ratio < x <= r -> 1 / (ratio - 1) ^ 2 * exp (- m * ratio) * (x / r - 1) ^ 2 = exp (- m * ratio) * ((1 - x / r) / (1 - ratio)) ^ 2) by (intros; field; lra).
  assert (B : forall x, r * ratio < x <= r -> 0 <= (1 - x / r) / (1 - ratio) <= 1).
  { intros x Hx. pose proof (Dr x). assert (ratio < x / r <= 1) by (split; [apply Rmult_lt_reg_r with r; lra|apply Rmult_le_reg_r with r; lra]). split; [apply Rdiv_nonneg; lra|].
    apply Rmult_le_reg_r with (1 - ratio); [lra|]. unfold Rdiv at 1. rewrite Rmult_assoc, Rinv_l; lra. }
  assert (Eb : exp (- (r * ratio) * m / r) = exp (- m * ratio)) by (f_equal; field; lra).
  unfold mix_s_at. destruct (leb d (r * ratio)) eqn:E; [apply leb_spec in E|apply leb_false in E]; (destruct (leb d' (r * ratio)) eqn:E'; [apply leb_spec in E'|apply leb_false in E']).
  - apply Mx. lra.
  - destruct (leb d' r) eqn:F; [apply leb_spec in F|left; apply exp_pos]. rewrite Q by lra. pose proof (B d' ltac:(lra)) as [B1 B2].
    apply Rle_trans with (exp (- m * ratio)); [|rewrite <- Eb; apply Mx; lra].
    pose proof (exp_pos (- m * ratio)). assert (((1 - d' / r) / (1 - ratio)) ^ 2 <= 1) by nra. nra.
  - lra.
  - destruct (leb d' r) eqn:F'; [apply leb_spec in F'|].
    + rewrite (proj2 (leb_spec d r)) by lra. rewrite !Q by lra. apply Rmult_le_compat_l; [left; apply exp_pos|].
      apply pow_incr. split; [apply B; lra|]. unfold Rdiv. apply Rmult_le_compat_r; [left; apply Rinv_0_lt_compat; lra|]. assert (d * / r <= d' * / r) by (apply Rmult_le_compat_r; [left; now apply Rinv_0_lt_compat|lra]). lra.
    + destruct (leb d r) eqn:F; [apply leb_spec in F|lra]. rewrite Q by lra. pose proof (exp_pos (- m * ratio)). pose proof (pow2_ge_0 ((1 - d / r) / (1 - ratio))). nra.
Qed.
Lemma mix_radius_spec cdd minst ds : StronglySorted Rle ds -> List.length ds = 11%nat -> (1 <= minst <= 10)%nat -> mix_radius_rule minst 10 minst 11 cdd ds (mix_radius cdd 11 minst ds).
Proof.
  intros Hs L Hm. unfold mix_radius. change nthR with at_. cbn [Nat.sub]. pose proof (within_nth cdd ds (minst - 1) Hs ltac:(lia)) as W1. pose proof (within_nth cdd ds 9 Hs ltac:(lia)) as W9.
  destruct (gtb (at_ ds (minst - 1)) cdd) eqn:E; [apply gtb_spec in E|apply gtb_false in E; destruct (gtb (at_ ds 9) cdd) eqn:E9; [apply gtb_spec in E9|apply gtb_false in E9]].
  - assert (~ (minst - 1 < within cdd ds)%nat) by (rewrite <- W1; lra). split; [reflexivity|]. split; intro; lia.
  - apply W1 in E. assert (~ (9 < within cdd ds)%nat) by (rewrite <- W9; lra). split; [intro; lia|]. split; [reflexivity|intro; lia].
  - apply W1 in E. apply W9 in E9. split; [intro; lia|]. split; [intro; lia|reflexivity].
Qed.
(** the radius covers the nearest point, strictly if it is nearer than the
    station number [minst] *)
Lemma mix_radius_above cdd minst ds : StronglySorted Rle ds -> List.length ds = 11%nat -> (1 <= minst <= 10)%nat -> at_ ds 0 < at_ ds (minst - 1) -> at_ ds 0 < mix_radius cdd 11 minst ds.
Proof.
  intros Hs L Hm H. unfold mix_radius. change nthR with at_. cbn [Nat.sub]. destruct (gtb (at_ ds (minst - 1)) cdd) eqn:E; [|apply gtb_false in E; destruct (gtb (at_ ds 9) cdd); [lra|]].
  - pose proof (sorted_nth ds (minst - 1) minst Hs ltac:(lia)). lra.
  - pose proof (sorted_nth ds (minst - 1) 10 Hs ltac:(lia)). lra.
Qed.

(** ** New et al. *)
Lemma newetal_s_fin cdds ds : newetal_s cdds ds = map XF (zipw decayR cdds ds).
Proof. unfold newetal_s. revert ds. induction cdds as [|c cdds IH]; intros [|d ds]; [reflexivity..|]. cbn [zipw map]. rewrite IH. f_equal. unfold decayR. destruct (leb d c); reflexivity. Qed.

(** ** the ten largest *)
Lemma only_top10_fin part s : argpartition10 part -> List.length s = 11%nat ->
  exists i, (i < 11)%nat /\ nth_error (part (map XF s)) 0 = Some i /\ only_top10 part (map XF s) = map XF (map (fun j => if Nat.eqb j i then 0 else at_ s j) (seq 0 11)) /\
    (exists j, (j < 11)%nat /\ j <> i /\ at_ s i <= at_ s j).
Proof.
  intros H L. destruct (H s L) as [P Hle]. set (idx := part (map XF s)) in *.
  assert (Li : List.length idx = 11%nat) by (rewrite (Permutation_length P); reflexivity).
  assert (Nd : NoDup idx) by (apply (Permutation_NoDup (Permutation_sym P)); apply seq_NoDup).
  destruct idx as [|i rest] eqn:Ei; [discriminate Li|]. assert (Hi : (i < 11)%nat) by (assert (In i (seq 0 11)) by (apply (Permutation_in _ P); now left); apply in_seq in H0; lia).
  exists i. split; [exact Hi|]. split; [reflexivity|]. split.
  - unfold only_top10. fold idx. rewrite Ei, map_length, L. rewrite Li. cbn [Nat.sub firstn]. rewrite map_map. apply map_ext_in. intros j Hj. cbn [existsb]. rewrite orb_false_r.
    destruct (Nat.eqb j i); [reflexivity|]. apply in_seq in Hj. unfold at_. rewrite (nth_map_in XF s j 0) by lia. reflexivity.
  - exists (nth 10 (i :: rest) O). assert (Hin : In (nth 10 (i :: rest) O) (i :: rest)) by (apply nth_In; lia). split; [|split].
    + apply (Permutation_in _ P) in Hin. apply in_seq in Hin. lia.
    + intro C. apply (NoDup_nth (i :: rest) O) with (i := 10%nat) (j := 0%nat) in Nd; [discriminate Nd|lia|lia|exact C].
    + apply (Hle O). lia.
Qed.
Lemma last_max_from_spec r : forall i best bv, (best < i)%nat -> let m := last_max_from r i best bv in
  (m = best \/ (i <= m < i + List.length r)%nat) /\ bv <= (if Nat.eqb m best then bv else at_ r (m - i)) /\ forall j, (j < List.length r)%nat -> at_ r j <= (if Nat.eqb m best then bv else at_ r (m - i)).
Proof.
  induction r as [|x r IH]; intros i best bv Hb; cbn [last_max_from].
  - cbn zeta. rewrite Nat.eqb_refl. split; [now left|]. split; [lra|]. intros j Hj. cbn in Hj. lia.
  - destruct (Rlt_dec x bv) as [E|E].
    + specialize (IH (S i) best bv ltac:(lia)). cbn zeta in *. set (m := last_max_from r (S i) best bv) in *. destruct IH as [I1 [I2 I3]]. cbn [List.length].
      split; [destruct I1 as [I1|I1]; [now left|right; lia]|]. destruct (Nat.eqb_spec m best) as [Em|Em].
      * split; [lra|]. intros [|j] Hj; [change (x <= bv); lra|]. apply I3. lia.
      * destruct I1 as [I1|I1]; [contradiction|]. assert (Ea : at_ (x :: r) (m - i) = at_ r (m - S i)) by (replace (m - i)%nat with (S (m - S i)) by lia; reflexivity). rewrite Ea.
        split; [exact I2|]. intros [|j] Hj; [change (x <= at_ r (m - S i)); lra|]. apply I3. lia.
    + specialize (IH (S i) i x ltac:(lia)). cbn zeta in *. set (m := last_max_from r (S i) i x) in *. destruct IH as [I1 [I2 I3]]. cbn [List.length].
      split; [right; destruct I1 as [I1|I1]; lia|]. assert (Hm : m <> best) by (destruct I1; lia). destruct (Nat.eqb_spec m best) as [C|_]; [contradiction|].
      destruct (Nat.eqb_spec m i) as [Em|Em].
      * rewrite Em, Nat.sub_diag. change (at_ (x :: r) 0) with x. split; [lra|]. intros [|j] Hj; [change (x <= x); lra|]. apply I3. lia.
      * destruct I1 as [I1|I1]; [contradiction|]. assert (Ea : at_ (x :: r) (m - i) = at_ r (m - S i)) by (replace (m - i)%nat with (S (m - S i)) by lia; reflexivity). rewrite Ea.
        split; [lra|]. intros [|j] Hj; [change (x <= at_ r (m - S i)); lra|]. apply I3. lia.
Qed.
Lemma last_max_spec s : s <> [] -> (last_max s < List.length s)%nat /\ forall j, (j < List.length s)%nat -> at_ s j <= at_ s (last_max s).
Proof.
  destruct s as [|x r]; intro H; [congruence|]. cbn [last_max]. pose proof (last_max_from_spec r 1 0 x ltac:(lia)) as [I1 [I2 I3]]. set (m := last_max_from r 1 0 x) in *. cbn [List.length].
  split; [destruct I1; lia|]. assert (E : at_ (x :: r) m = if Nat.eqb m 0 then x else at_ r (m - 1)). { destruct (Nat.eqb_spec m 0) as [->|N]; [reflexivity|]. destruct m as [|m]; [congruence|]. cbn [Nat.sub]. rewrite Nat.sub_0_r. reflexivity. }
  rewrite E. intros [|j] Hj; [exact I2|]. apply I3. lia.
Qed.
Lemma NoDup_map_inj_in {A B} (f : A -> B) l : (forall a b, In a l -> In b l -> f a = f b -> a = b) -> NoDup l -> NoDup (map f l).
Proof. intros H N. induction N as [|a l Ha N IH]; [constructor|]. cbn [map]. constructor; [|apply IH; intros; apply H; try right; assumption]. intro C. apply in_map_iff in C. destruct C as [b [E Hb]]. apply H in E; [subst; contradiction|now right|now left]. Qed.
Lemma numpy_part_ok : argpartition10 numpy_part.
Proof.
  intros s L. unfold numpy_part. rewrite map_map. cbn [real_of]. rewrite map_id, map_length, L. destruct (last_max_spec s) as [Hm Hmax]; [intro C; rewrite C in L; discriminate L|]. rewrite L in Hm, Hmax.
  set (m := last_max s) in *. set (f := fun i => if Nat.eqb i m then 10%nat else if Nat.eqb i 10 then m else i).
  assert (Hf : forall i, (i < 11)%nat -> (f i < 11)%nat) by (intros i Hi; unfold f; destruct (Nat.eqb i m); [lia|]; destruct (Nat.eqb i 10); lia).
  assert (F10 : f 10%nat = m) by (unfold f; destruct (Nat.eqb_spec 10 m); [assumption|reflexivity]).
  assert (Nth : forall i, (i < 11)%nat -> nth i (map f (seq 0 11)) O = f i) by (intros i Hi; rewrite (nth_map_in f (seq 0 11) i O) by (rewrite seq_length; lia); now rewrite seq_nth by lia).
  split.
  - apply NoDup_Permutation_bis; [|rewrite map_length; lia|intros x Hx; apply in_map_iff in Hx; destruct Hx as [i [<- Hi]]; apply in_seq in Hi; apply in_seq; specialize (Hf i ltac:(lia)); lia].
    apply NoDup_map_inj_in; [|apply seq_NoDup]. intros a b _ _. unfold f. destruct (Nat.eqb_spec a m), (Nat.eqb_spec b m), (Nat.eqb_spec a 10), (Nat.eqb_spec b 10); lia.
  - intros i Hi. rewrite !Nth by lia. rewrite F10. apply Hmax. apply Hf. lia.
Qed.
