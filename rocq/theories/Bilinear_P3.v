(** * Bilinear_P3: coordinates of a source point as seen from the target *)
From Verif Require Import Base Num Strings Xr Adw Bilinear Spec_Bilinear Bilinear_P.
From Coq Require Import Psatz.
Local Open Scope R_scope.

Definition turns (a b : R) : Prop := exists k : Z, b = a + 360 * IZR k.
Lemma turns_refl a : turns a a. Proof. exists 0%Z. lra. Qed.
Lemma turns_trans a b c : turns a b -> turns b c -> turns a c.
Proof. intros [k ->] [l ->]. exists (k + l)%Z. rewrite plus_IZR. lra. Qed.
Lemma to180_turns x : turns x (to180 x).
Proof. unfold to180. destruct (Rlt_dec 180 x); [exists (-1)%Z|exists 0%Z]; lra. Qed.
Lemma reference_turns l x : turns x (reference l x).
Proof. unfold reference. destruct (Rlt_dec l (-90)); [destruct (Rlt_dec 0 x); [exists (-1)%Z; lra|apply turns_refl]|]. destruct (Rlt_dec 90 l); [|apply turns_refl]. destruct (Rlt_dec x 0); [exists 1%Z; lra|apply turns_refl]. Qed.
Lemma mod360_turns x : turns x (mod360 x).
Proof. unfold mod360. exists (- Int_part (x / 360))%Z. rewrite opp_IZR. lra. Qed.
Lemma Int_part_is r k : IZR k <= r < IZR k + 1 -> Int_part r = k.
Proof. intros [A B]. unfold Int_part. assert (E : (k + 1)%Z = up r) by (apply tech_up; rewrite plus_IZR; lra). rewrite <- E. lia. Qed.
Lemma mod360_is x k : 360 * IZR k <= x < 360 * IZR k + 360 -> mod360 x = x - 360 * IZR k.
Proof. intros H. unfold mod360. rewrite (Int_part_is (x / 360) k); [reflexivity|]. split; lra. Qed.

(** full turns and half turns *)
Lemma cos_turns_nat n x : cos (x + IZR (Z.of_nat n) * (2 * PI)) = cos x /\ sin (x + IZR (Z.of_nat n) * (2 * PI)) = sin x.
Proof.
  induction n as [|n [IH1 IH2]]; [rewrite Rmult_0_l, Rplus_0_r; split; reflexivity|].
  rewrite Nat2Z.inj_succ, succ_IZR. replace (x + (IZR (Z.of_nat n) + 1) * (2 * PI)) with ((x + IZR (Z.of_nat n) * (2 * PI)) + 2 * PI) by ring.
  set (y := x + IZR (Z.of_nat n) * (2 * PI)) in *. rewrite (cos_plus y), (sin_plus y), cos_2PI, sin_2PI, IH1, IH2. split; ring.
Qed.
Lemma cos_turns k x : cos (x + IZR k * (2 * PI)) = cos x /\ sin (x + IZR k * (2 * PI)) = sin x.
Proof.
  destruct (Z_le_gt_dec 0 k) as [H|H].
  - rewrite <- (Z2Nat.id k H). apply cos_turns_nat.
  - destruct (cos_turns_nat (Z.to_nat (- k)) (x + IZR k * (2 * PI))) as [A B]. rewrite Z2Nat.id in A, B by lia. rewrite opp_IZR in A, B. replace (x + IZR k * (2 * PI) + - IZR k * (2 * PI)) with x in A, B by ring. split; symmetry; assumption.
Qed.
Lemma rad_turns a b : turns a b -> cos (rad b) = cos (rad a) /\ sin (rad b) = sin (rad a).
Proof. intros [k ->]. replace (rad (a + 360 * IZR k)) with (rad a + IZR k * (2 * PI)) by (unfold rad; field). apply cos_turns. Qed.
Lemma rad_180 a : cos (rad (a + 180)) = - cos (rad a) /\ sin (rad (a + 180)) = - sin (rad a).
Proof. replace (rad (a + 180)) with (rad a + PI) by (unfold rad; field). rewrite neg_cos, neg_sin. split; reflexivity. Qed.
Lemma rad_flip_lat lat : lat <> 0 -> cos (rad (180 * rsign lat - lat)) = - cos (rad lat) /\ sin (rad (180 * rsign lat - lat)) = sin (rad lat).
Proof.
  intro N. unfold rsign. destruct (Rlt_dec 0 lat) as [P|P].
  - replace (rad (180 * 1 - lat)) with (PI - rad lat) by (unfold rad; field). rewrite cos_minus, sin_minus, cos_PI, sin_PI. split; ring.
  - destruct (Rlt_dec lat 0) as [Q|Q]; [|lra]. replace (rad (180 * -1 - lat)) with (- (rad lat + PI)) by (unfold rad; field). rewrite cos_neg, sin_neg, neg_cos, neg_sin. split; ring.
Qed.

Lemma correct_point_same lon_in lat lon lat' lon' : correct_point lon_in lat lon = (lat', lon') ->
  lat <> 0 \/ Rabs (lon_in - reference lon_in (to180 lon)) <= 90 -> same_place_on_earth lat lon lat' lon'.
Proof.
  unfold correct_point. set (lon1 := reference lon_in (to180 lon)). intros E H.
  assert (T1 : turns lon lon1) by (eapply turns_trans; [apply to180_turns|apply reference_turns]). destruct (rad_turns _ _ T1) as [C1 S1].
  destruct (Rlt_dec 90 (Rabs (lon_in - lon1))) as [F|F].
  - assert (N : lat <> 0) by (destruct H as [H|H]; [exact H|lra]). injection E as <- <-.
    assert (T2 : turns (lon1 + 180) (reference lon_in (to180 (mod360 (lon1 + 180))))) by (eapply turns_trans; [apply mod360_turns|]; eapply turns_trans; [apply to180_turns|apply reference_turns]).
    destruct (rad_turns _ _ T2) as [C2 S2]. destruct (rad_180 lon1) as [C3 S3]. destruct (rad_flip_lat lat N) as [C4 S4]. unfold same_place_on_earth. rewrite C2, S2, C3, S3, C4, S4, C1, S1. repeat split; ring.
  - injection E as <- <-. destruct (rad_turns _ _ (reference_turns lon_in lon1)) as [C2 S2]. unfold same_place_on_earth. rewrite C2, S2, C1, S1. repeat split; reflexivity.
Qed.
(** at most a quarter turn away in longitude *)
Lemma correct_point_near lon_in lat lon lat' lon' : -180 <= lon_in <= 180 -> -180 <= lon <= 360 -> correct_point lon_in lat lon = (lat', lon') -> Rabs (lon_in - lon') <= 90.
Proof.
  intros Hi Hl. unfold correct_point. set (lon1 := reference lon_in (to180 lon)).
  assert (R1 : (lon_in < -90 -> -360 <= lon1 <= 0) /\ (90 < lon_in -> 0 <= lon1 <= 360) /\ (-180 <= lon1 <= 180 \/ lon_in < -90 \/ 90 < lon_in)).
  { unfold lon1, reference, to180. destruct (Rlt_dec 180 lon), (Rlt_dec lon_in (-90)), (Rlt_dec 90 lon_in);
    repeat match goal with |- context [Rlt_dec ?a ?b] => destruct (Rlt_dec a b) end; lra. }
  clearbody lon1. destruct (Rlt_dec 90 (Rabs (lon_in - lon1))) as [F|F]; intro E; injection E as <- <-.
  - assert (M : (lon1 + 180 < 0 /\ mod360 (lon1 + 180) = lon1 + 540) \/ (0 <= lon1 + 180 < 360 /\ mod360 (lon1 + 180) = lon1 + 180) \/ (360 <= lon1 + 180 /\ mod360 (lon1 + 180) = lon1 - 180)).
    { destruct (Rlt_dec (lon1 + 180) 0) as [A|A]; [left; split; [exact A|]; rewrite (mod360_is _ (-1)); lra|]. destruct (Rlt_dec (lon1 + 180) 360) as [B|B]; right; [left|right]; (split; [lra|]); [rewrite (mod360_is _ 0)|rewrite (mod360_is _ 1)]; lra. }
    set (m := mod360 (lon1 + 180)) in *. clearbody m. unfold reference, to180. unfold Rabs in *.
    repeat match goal with |- context [Rlt_dec ?a ?b] => destruct (Rlt_dec a b) end; repeat match goal with |- context [Rcase_abs ?a] => destruct (Rcase_abs a) | H : context [Rcase_abs ?a] |- _ => destruct (Rcase_abs a) end; lra.
  - unfold reference. unfold Rabs in *.
    repeat match goal with |- context [Rlt_dec ?a ?b] => destruct (Rlt_dec a b) end; repeat match goal with |- context [Rcase_abs ?a] => destruct (Rcase_abs a) | H : context [Rcase_abs ?a] |- _ => destruct (Rcase_abs a) end; lra.
Qed.
