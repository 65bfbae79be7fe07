(** * Bilinear_P7: failures of the bilinear search *)
From Verif Require Import Base Base_P Num Strings Xr Adw Bilinear Spec_Bilinear Bilinear_P Bilinear_P2 Bilinear_P3 Bilinear_P4 Bilinear_P5 Bilinear_P6 Props_Bilinear Props_Bilinear2.
From Coq Require Import Psatz Permutation Sorting.
Local Open Scope R_scope.

(** ** angles *)
Definition dotv (a b : plane) : R := fst a * fst b + snd a * snd b.
Definition crossv (a b : plane) : R := fst a * snd b - snd a * fst b.
Definition minus (a b : plane) : plane := (fst a - fst b, snd a - snd b).
(** the angle at [b] from [a] to [c], in degrees, from 0 to 360 *)
Definition is_angle (angle : plane -> plane -> plane -> R) : Prop := forall a b c, a <> b -> c <> b ->
  0 <= angle a b c < 360 /\ exists r, 0 < r /\ dotv (minus a b) (minus c b) = r * cos (rad (angle a b c)) /\ crossv (minus a b) (minus c b) = r * sin (rad (angle a b c)).

Lemma angle_small angle a b c : is_angle angle -> a <> b -> c <> b -> angle a b c < 1799 / 10 ->
  0 < crossv (minus a b) (minus c b) \/ (crossv (minus a b) (minus c b) = 0 /\ 0 < dotv (minus a b) (minus c b)).
Proof.
  intros A Hab Hcb H. destruct (A a b c Hab Hcb) as [[L _] [r [Hr [D C]]]]. destruct (Rle_lt_or_eq_dec _ _ L) as [P|P].
  - left. rewrite C. apply Rmult_lt_0_compat; [exact Hr|]. assert (PP := PI_RGT_0). apply sin_gt_0; unfold rad.
    + apply Rmult_lt_0_compat; [|lra]. apply Rmult_lt_0_compat; lra.
    + apply Rmult_lt_reg_r with 180; [lra|]. unfold Rdiv. rewrite Rmult_assoc, Rinv_l by lra. rewrite Rmult_1_r, (Rmult_comm PI). apply Rmult_lt_compat_r; lra.
  - right. rewrite <- P in C, D. replace (rad 0) with 0 in * by (unfold rad; lra). rewrite sin_0 in C. rewrite cos_0 in D. lra.
Qed.

(** ** a quadrilateral with four angles below 180 degrees is convex *)
Definition turn (a b c : plane) : Prop := 0 < crossv (minus a b) (minus c b) \/ (crossv (minus a b) (minus c b) = 0 /\ 0 < dotv (minus a b) (minus c b)).
Lemma plane_eq (a b : plane) : fst a = fst b -> snd a = snd b -> a = b. Proof. destruct a, b. cbn. intros; subst; reflexivity. Qed.
Lemma collinear_param (b a c : plane) : a <> b -> crossv (minus a b) (minus c b) = 0 -> exists s, fst c = fst b + s * (fst a - fst b) /\ snd c = snd b + s * (snd a - snd b).
Proof.
  intros N H. unfold crossv, minus in H. cbn [fst snd] in H. destruct (Req_dec (fst a - fst b) 0) as [Z|Z].
  - assert (Y : snd a - snd b <> 0). { intro Y. apply N. apply plane_eq; lra. }
    exists ((snd c - snd b) / (snd a - snd b)). split; [|field; exact Y]. assert (E : (snd a - snd b) * (fst c - fst b) = 0) by nra. apply Rmult_integral in E. rewrite Z. nra.
  - exists ((fst c - fst b) / (fst a - fst b)). split; [field; exact Z|]. field_simplify_eq; [nra|exact Z].
Qed.
(** the points of a back and forth on a line: the second and the last before the
    first and the third *)
Definition zigzag (p1 p2 p3 p4 : plane) : Prop := exists (o u : plane) (t1 t2 t3 t4 : R),
  (t2 < t1 /\ t2 < t3 /\ t4 < t1 /\ t4 < t3) /\
  Forall2 (fun p t => fst p = fst o + t * fst u /\ snd p = snd o + t * snd u) [p1; p2; p3; p4] [t1; t2; t3; t4].
Lemma f4 {A B} (P : A -> B -> Prop) a1 a2 a3 a4 b1 b2 b3 b4 : Forall2 P [a1; a2; a3; a4] [b1; b2; b3; b4] <-> P a1 b1 /\ P a2 b2 /\ P a3 b3 /\ P a4 b4.
Proof. split; [intro H; inversion_clear H as [|? ? ? ? H1 H']; inversion_clear H' as [|? ? ? ? H2 H'']; inversion_clear H'' as [|? ? ? ? H3 H]; inversion_clear H as [|? ? ? ? H4 _]; auto|intros [H1 [H2 [H3 H4]]]; auto]. Qed.
Lemma straight_zigzag p1 p2 p3 p4 : p1 <> p2 -> p3 <> p2 -> p4 <> p3 -> p4 <> p1 ->
  turn p2 p3 p4 -> turn p4 p1 p2 -> crossv (minus p1 p2) (minus p3 p2) = 0 -> 0 < dotv (minus p1 p2) (minus p3 p2) -> zigzag p1 p2 p3 p4.
Proof.
  intros N12 N32 N43 N41 T3 T1 C D. destruct (collinear_param p2 p1 p3 N12 C) as [l [El1 El2]].
  set (u1 := fst p1 - fst p2) in *. set (u2 := snd p1 - snd p2) in *.
  assert (U : 0 < u1 * u1 + u2 * u2).
  { destruct (Req_dec u1 0) as [Z1|Z1]; [destruct (Req_dec u2 0) as [Z2|Z2]|]; [exfalso; apply N12; apply plane_eq; unfold u1, u2 in *; lra|nra|nra]. }
  assert (Hl : 0 < l).
  { unfold dotv, minus in D. cbn [fst snd] in D. fold u1 u2 in D. rewrite El1, El2 in D. nra. }
  assert (X : crossv (u1, u2) (minus p4 p2) = 0).
  { assert (A : 0 <= crossv (minus p2 p3) (minus p4 p3)) by (destruct T3 as [T|[T _]]; lra). assert (B : 0 <= crossv (minus p4 p1) (minus p2 p1)) by (destruct T1 as [T|[T _]]; lra).
    unfold crossv, minus in *. cbn [fst snd] in *. rewrite El1, El2 in A.
    assert (B' : 0 <= u1 * (snd p4 - snd p2) - u2 * (fst p4 - fst p2)) by (unfold u1, u2 in *; nra).
    assert (A' : 0 <= - l * (u1 * (snd p4 - snd p2) - u2 * (fst p4 - fst p2))) by (clear - A; nra). nra. }
  destruct (collinear_param p2 p1 p4 N12) as [m [Em1 Em2]]; [exact X|]. fold u1 u2 in Em1, Em2.
  assert (P1 : fst p1 = fst p2 + 1 * u1) by (unfold u1; lra). assert (P2 : snd p1 = snd p2 + 1 * u2) by (unfold u2; lra).
  assert (M1 : m < l).
  { destruct T3 as [T|[_ T]]; unfold crossv, dotv, minus in T; cbn [fst snd] in T; rewrite El1, El2, Em1, Em2 in T; [exfalso; clear - T; nra|]. assert (Q : 0 < (u1 * u1 + u2 * u2) * (l * (l - m))) by (clear - T; nra).
    assert (Q' : 0 < l * (l - m)) by nra. nra. }
  assert (M2 : m < 1).
  { destruct T1 as [T|[_ T]]; unfold crossv, dotv, minus in T; cbn [fst snd] in T; rewrite P1, P2, Em1, Em2 in T; [exfalso; clear - T; nra|]. assert (Q : 0 < (u1 * u1 + u2 * u2) * (1 - m)) by (clear - T; nra). nra. }
  exists p2, (u1, u2), 1, 0, l, m. split; [lra|]. apply f4. cbn [fst snd]. repeat split; lra.
Qed.
Lemma zigzag_turn p1 p2 p3 p4 : zigzag p2 p3 p4 p1 -> zigzag p1 p2 p3 p4.
Proof.
  intros [o [u [t2 [t3 [t4 [t1 [L H]]]]]]]. apply f4 in H. exists o, (- fst u, - snd u), (- t1), (- t2), (- t3), (- t4). split; [lra|]. apply f4. cbn [fst snd]. repeat split; lra.
Qed.
Lemma zigzag_ordered (p1 p2 p3 p4 : corner) : zigzag (xy p1) (xy p2) (xy p3) (xy p4) -> clat p1 <= clat p4 -> clat p2 <= clat p3 ->
  sort_key p1 <= sort_key p2 -> sort_key p4 <= sort_key p3 -> xy p1 = xy p2.
Proof.
  intros [o [[u1 u2] [t1 [t2 [t3 [t4 [L H]]]]]]] A B C D. apply f4 in H. unfold xy in *. cbn [fst snd] in *. unfold sort_key in *. destruct H as [[A1 B1] [[A2 B2] [[A3 B3] [A4 B4]]]].
  assert (U1 : u1 = 0). { assert (0 <= (t4 - t1) * u1) by lra. assert (0 <= (t3 - t2) * u1) by lra. nra. }
  subst u1. assert (U2 : u2 = 0). { assert (0 <= (t2 - t1) * u2) by lra. assert (0 <= (t3 - t4) * u2) by lra. nra. }
  subst u2. f_equal; lra.
Qed.
Lemma turn_area a b c : crossv (minus a b) (minus c b) = - area2 a b c.
Proof. unfold crossv, minus, area2. cbn [fst snd]. ring. Qed.
Lemma small_angles_convex (p1 p2 p3 p4 : corner) : xy p1 <> xy p2 -> xy p2 <> xy p3 -> xy p3 <> xy p4 -> xy p4 <> xy p1 ->
  clat p1 <= clat p4 -> clat p2 <= clat p3 -> sort_key p1 <= sort_key p2 -> sort_key p4 <= sort_key p3 ->
  turn (xy p1) (xy p2) (xy p3) -> turn (xy p2) (xy p3) (xy p4) -> turn (xy p3) (xy p4) (xy p1) -> turn (xy p4) (xy p1) (xy p2) -> strictly_convex (xy p1) (xy p2) (xy p3) (xy p4).
Proof.
  intros N1 N2 N3 N4 A B C D T2 T3 T4 T1.
  assert (Z : ~ zigzag (xy p1) (xy p2) (xy p3) (xy p4)) by (intro Z; apply N1; eapply zigzag_ordered; eassumption).
  assert (Q2 : 0 < crossv (minus (xy p1) (xy p2)) (minus (xy p3) (xy p2))).
  { destruct T2 as [T|[E F]]; [exact T|]. exfalso. apply Z. apply straight_zigzag; auto. }
  assert (Q3 : 0 < crossv (minus (xy p2) (xy p3)) (minus (xy p4) (xy p3))).
  { destruct T3 as [T|[E F]]; [exact T|]. exfalso. apply Z. apply zigzag_turn. apply straight_zigzag; auto. }
  assert (Q4 : 0 < crossv (minus (xy p3) (xy p4)) (minus (xy p1) (xy p4))).
  { destruct T4 as [T|[E F]]; [exact T|]. exfalso. apply Z. apply zigzag_turn, zigzag_turn. apply straight_zigzag; auto. }
  assert (Q1 : 0 < crossv (minus (xy p4) (xy p1)) (minus (xy p2) (xy p1))).
  { destruct T1 as [T|[E F]]; [exact T|]. exfalso. apply Z. apply zigzag_turn, zigzag_turn, zigzag_turn. apply straight_zigzag; auto. }
  rewrite turn_area in *. right. repeat split; lra.
Qed.
(** a quadrilateral that is not convex has a vertex to replace: one with an angle
    of about 180 degrees or more *)
Lemma vertex_found argsort angle cs : is_angle angle -> List.length cs = 4%nat -> is_argsort (map sort_key cs) (argsort (map sort_key cs)) -> NoDup (map xy cs) ->
  let '(p1, p2, p3, p4) := clockwise argsort cs in is_convex (xy p1) (xy p2) (xy p3) (xy p4) = false ->
  exists a b c, nonconvex_vertex angle (p1, p2, p3, p4) = Some (cidx b) /\ 1799 / 10 <= angle (xy a) (xy b) (xy c) /\ In (a, b, c) [(p1, p2, p3); (p2, p3, p4); (p3, p4, p1); (p4, p1, p2)].
Proof.
  intros A L S N. destruct (clockwise_spec argsort cs L S) as [p1 [p2 [p3 [p4 [E [P [L1 [L2 [K1 [_ [_ [K2 _]]]]]]]]]]]]. rewrite E. intro C.
  apply (Permutation_map xy) in P. assert (N' := Permutation_NoDup P N). cbn [map] in N'.
  assert (N12 : xy p1 <> xy p2) by (inversion_clear N' as [|? ? I _]; intro Q; apply I; rewrite Q; now left).
  assert (N14 : xy p4 <> xy p1) by (inversion_clear N' as [|? ? I _]; intro Q; apply I; rewrite Q; right; right; now left).
  apply NoDup_cons_iff in N'. destruct N' as [_ N'].
  assert (N23 : xy p2 <> xy p3) by (inversion_clear N' as [|? ? I _]; intro Q; apply I; rewrite Q; now left).
  apply NoDup_cons_iff in N'. destruct N' as [_ N'].
  assert (N34 : xy p3 <> xy p4) by (inversion_clear N' as [|? ? I _]; intro Q; apply I; rewrite Q; now left).
  unfold nonconvex_vertex. cbn [In].
  destruct (leb_spec (1799 / 10) (angle (xy p1) (xy p2) (xy p3))) as [G2|G2]; [exists p1, p2, p3; tauto|].
  destruct (leb_spec (1799 / 10) (angle (xy p2) (xy p3) (xy p4))) as [G3|G3]; [exists p2, p3, p4; tauto|].
  destruct (leb_spec (1799 / 10) (angle (xy p3) (xy p4) (xy p1))) as [G4|G4]; [exists p3, p4, p1; tauto|].
  destruct (leb_spec (1799 / 10) (angle (xy p4) (xy p1) (xy p2))) as [G1|G1]; [exists p4, p1, p2; tauto|].
  exfalso. assert (X : is_convex (xy p1) (xy p2) (xy p3) (xy p4) = true).
  { apply is_convex_spec. apply small_angles_convex; auto; apply (angle_small angle); auto; try lra. }
  congruence.
Qed.

(** ** the tree *)
Lemma NoDup_app_left {A} (l l' : list A) : NoDup (l ++ l')%list -> NoDup l.
Proof. induction l as [|a l IH]; cbn [app]; intro N; [constructor|]. inversion_clear N as [|? ? H N']. constructor; [intro Q; apply H; apply in_or_app; now left|auto]. Qed.
Lemma tree_answer pts query p k : kdtree pts query -> (k <= List.length pts)%nat ->
  List.length (query p k) = k /\ NoDup (query p k) /\ forall i, In i (query p k) -> (0 <= i < Z.of_nat (List.length pts))%Z.
Proof.
  intros K Hk. destruct (K p k) as [o [P [_ ->]]]. assert (Lo : List.length o = List.length pts) by (apply Permutation_length in P; rewrite seq_length in P; congruence).
  assert (No : NoDup o) by (eapply Permutation_NoDup; [exact P|apply seq_NoDup]).
  replace (k - List.length pts)%nat with O by lia. cbn [repeat]. rewrite List.app_nil_r, map_length, firstn_length. split; [lia|]. split.
  - apply FinFun.Injective_map_NoDup; [intros a b; apply Nat2Z.inj|]. rewrite <- (firstn_skipn k o) in No. apply NoDup_app_left in No. exact No.
  - intros i Hi. apply in_map_iff in Hi. destruct Hi as [j [<- Hj]]. assert (In j o) by (rewrite <- (firstn_skipn k o); apply in_or_app; now left).
    apply (Permutation_in _ (Permutation_sym P)) in H. apply in_seq in H. lia.
Qed.

(** ** replacing *)
Lemma py_index_neg {A} (l : list A) n : (n < List.length l)%nat -> exists x, py_index l (- (Z.of_nat n + 1)) = Ok x /\ nth_error l (List.length l - 1 - n) = Some x.
Proof.
  intro H. destruct (nth_error l (List.length l - 1 - n)) as [x|] eqn:E; [|apply nth_error_None in E; lia].
  exists x. split; [|reflexivity]. unfold py_index. cbn zeta. destruct (Z.ltb_spec (- (Z.of_nat n + 1)) 0); [|lia]. destruct (Z.ltb_spec (- (Z.of_nat n + 1) + Z.of_nat (List.length l)) 0); [lia|].
  replace (Z.to_nat (- (Z.of_nat n + 1) + Z.of_nat (List.length l))) with (List.length l - 1 - n)%nat by lia. rewrite E. reflexivity.
Qed.
Lemma put_in idx w x j : In j (put_index idx w x) -> j = x \/ In j idx.
Proof. unfold put_index. intro H. apply in_map_iff in H. destruct H as [k [E Hk]]. destruct (k =? w)%Z; [left; congruence|right; congruence]. Qed.
(** enough new points: none missing, all of the old or new ones *)
Lemma put_ok news : forall wrong idx n, (Z.to_nat n + List.length wrong <= List.length news)%nat -> (0 <= n)%Z ->
  exists idx', put_from_end idx wrong n news = Ok idx' /\ forall j, In j idx' -> In j idx \/ In j news.
Proof.
  induction wrong as [|w wrong IH]; intros idx n H Hn; cbn [put_from_end]; [exists idx; split; [reflexivity|auto]|]. cbn [List.length] in H.
  destruct (py_index_neg news (Z.to_nat n) ltac:(lia)) as [x [E Ex]]. rewrite Z2Nat.id in E by lia. rewrite E. cbn [rbind].
  destruct (IH (put_index idx w x) (n + 1)%Z ltac:(lia) ltac:(lia)) as [idx' [E' I']]. exists idx'. split; [exact E'|]. intros j Hj. destruct (I' j Hj) as [Q|Q]; [|auto]. apply put_in in Q. destruct Q as [->|Q]; [right; eapply nth_error_In; exact Ex|auto].
Qed.
(** one new point in a list of different ones *)
Lemma put_nodup idx w x : NoDup idx -> ~ In x idx -> NoDup (put_index idx w x).
Proof.
  intros N. induction N as [|a l H N IH]; intro Hx; [constructor|]. cbn [put_index map] in *. assert (Hx' : ~ In x l) by (intro Q; apply Hx; now right). fold (put_index l w x).
  destruct (Z.eqb_spec a w) as [->|Na].
  - constructor; [|auto]. unfold put_index. rewrite (map_ext_in _ (fun j => j)), map_id; [exact Hx'|]. intros j Hj. destruct (Z.eqb_spec j w) as [->|]; [contradiction|reflexivity].
  - constructor; [|auto]. intro Q. apply put_in in Q. destruct Q as [->|Q]; [apply Hx; now left|contradiction].
Qed.
Lemma filter_new (idx l : list Z) : NoDup l -> (List.length l <= List.length idx + List.length (filter (fun j => negb (zmem j idx)) l))%nat.
Proof.
  intro N. assert (H : (List.length (filter (fun j => zmem j idx) l) <= List.length idx)%nat).
  { apply NoDup_incl_length; [apply NoDup_filter; exact N|]. intros j Hj. apply filter_In in Hj. destruct Hj as [_ Hj]. apply zmem_In. exact Hj. }
  assert (E : forall l : list Z, (List.length l = List.length (filter (fun j => zmem j idx) l) + List.length (filter (fun j => negb (zmem j idx)) l))%nat).
  { clear. induction l as [|a l IH]; [reflexivity|]. cbn [filter]. destruct (zmem a idx); cbn [negb List.length]; lia. }
  rewrite (E l). lia.
Qed.

(** ** the points to exclude *)
Lemma repeated_length cs : forall seen, (List.length (repeated seen cs) <= List.length cs)%nat.
Proof. induction cs as [|c cs IH]; intro seen; cbn [repeated]; [apply le_n|]. rewrite app_length. specialize (IH (seen ++ [c])%list). destruct (existsb _ _); cbn [List.length]; lia. Qed.
Lemma repeated_first cs : (List.length (repeated [] cs) <= List.length cs - 1)%nat.
Proof. destruct cs as [|c cs]; cbn [repeated existsb app]; [apply le_n|]. pose proof (repeated_length cs [c]). cbn [List.length]. lia. Qed.
Lemma same_place_spec a b : same_place a b = true <-> xy a = xy b.
Proof. unfold same_place, xy. destruct (Req_EM_T (clat a) (clat b)), (Req_EM_T (clon a) (clon b)); split; intro H; congruence. Qed.
Lemma repeated_none cs : forall seen, repeated seen cs = [] -> NoDup (map xy seen) -> NoDup (map xy (seen ++ cs)).
Proof.
  induction cs as [|c cs IH]; intros seen H N; [rewrite List.app_nil_r; exact N|]. cbn [repeated] in H. apply app_eq_nil in H. destruct H as [H1 H2].
  replace (seen ++ c :: cs)%list with ((seen ++ [c]) ++ cs)%list by (rewrite <- app_assoc; reflexivity). apply IH; [exact H2|]. rewrite map_app. cbn [map].
  apply (Permutation_NoDup (Permutation_cons_append (map xy seen) (xy c))). constructor; [|exact N]. intro Q. apply in_map_iff in Q. destruct Q as [s [E Hs]].
  assert (X : existsb (same_place c) seen = true) by (apply existsb_exists; exists s; split; [exact Hs|apply same_place_spec; congruence]). rewrite X in H1. discriminate.
Qed.
Lemma filter_shorter {A} (f : A -> bool) l : (List.length (filter f l) <= List.length l)%nat.
Proof. induction l as [|a l IH]; cbn [filter]; [apply le_n|]. destruct (f a); cbn [List.length]; lia. Qed.
Lemma drop_far_length : forall n ds, (List.length (drop_far n ds) <= List.length ds - 2)%nat.
Proof.
  induction n as [|n IH]; intro ds; cbn [drop_far]; [cbn [List.length]; lia|]. destruct (Nat.ltb_spec 2 (List.length ds)) as [H|H]; [|cbn [List.length]; lia].
  set (l := map (fun d => Rabs (clat d) + / 100 * Rabs (clon d)) ds). set (c := nthc ds (argmax l)).
  assert (Hc : In c ds). { apply nthc_in. assert (Ll : List.length l = List.length ds) by apply map_length. rewrite <- Ll. apply argmax_range. unfold l. intro E. apply (f_equal (@List.length R)) in E. rewrite map_length in E. cbn [List.length] in E. lia. }
  clearbody c. cbn [List.length]. specialize (IH (filter (fun d => negb (cidx d =? cidx c)%Z) ds)).
  assert (F : (List.length (filter (fun d => negb (cidx d =? cidx c)%Z) ds) < List.length ds)%nat).
  { clear IH H l. induction ds as [|a ds IHd]; [destruct Hc|]. cbn [filter List.length]. destruct (Z.eqb_spec (cidx a) (cidx c)) as [E|E]; cbn [negb List.length].
    - assert (X := filter_shorter (fun d => negb (cidx d =? cidx c)%Z) ds). lia.
    - destruct Hc as [->|Hc]; [congruence|]. specialize (IHd Hc). lia. }
  lia.
Qed.
Lemma sides cs la : (List.length (ups la cs) + List.length (downs la cs) = List.length cs)%nat.
Proof.
  unfold ups, downs. induction cs as [|c cs IH]; [reflexivity|]. cbn [filter]. destruct (leb_spec (clat c) la), (ltb_spec la (clat c)); cbn [List.length]; try lra; lia.
Qed.
Lemma shifted_length la lo cs : List.length (shifted la lo cs) = List.length cs. Proof. apply map_length. Qed.
Lemma wrong_few la lo cs : List.length cs = 4%nat -> (List.length (wrong_direction la lo cs) <= 3)%nat.
Proof.
  intro L. unfold wrong_direction. destruct (repeated [] cs) as [|w ws] eqn:E.
  - rewrite app_length. pose proof (drop_far_length 4 (shifted la lo (ups la cs))) as A. pose proof (drop_far_length 4 (shifted la lo (downs la cs))) as B. rewrite shifted_length in *. pose proof (sides cs la). lia.
  - rewrite <- E. pose proof (repeated_first cs). lia.
Qed.
Lemma wrong_none la lo cs : List.length cs = 4%nat -> wrong_direction la lo cs = [] -> NoDup (map xy cs) /\ List.length (ups la cs) = 2%nat /\ List.length (downs la cs) = 2%nat.
Proof.
  intros L H. unfold wrong_direction in H. destruct (repeated [] cs) as [|w ws] eqn:E; [|discriminate]. split; [apply (repeated_none cs [] E); constructor|].
  apply app_eq_nil in H. destruct H as [H1 H2]. pose proof (sides cs la).
  assert (X : forall ds, drop_far 4 ds = [] -> (List.length ds <= 2)%nat) by (intros ds Q; cbn [drop_far] in Q; destruct (Nat.ltb_spec 2 (List.length ds)) as [G|G]; [discriminate|exact G]).
  apply X in H1, H2. rewrite shifted_length in *. lia.
Qed.
Lemma two {A} (l : list A) : List.length l = 2%nat -> exists a b, l = [a; b].
Proof. destruct l as [|a [|b [|]]]; intro H; try discriminate H. exists a, b. reflexivity. Qed.
Lemma pick2 k a b : k = 0%nat \/ k = 1%nat -> exists x y, py_index [a; b] (Z.of_nat k) = Ok x /\ other [a; b] k = Ok y /\ In x [a; b] /\ In y [a; b].
Proof. unfold other. intros [-> | ->]; [exists a, b|exists b, a]; cbn; auto 6. Qed.
Lemma argmax_two (l : list R) : List.length l = 2%nat -> argmax l = 0%nat \/ argmax l = 1%nat.
Proof. intro H. apply two in H. destruct H as [a [b ->]]. destruct (argmax2 a b) as [[-> _]|[-> _]]; auto. Qed.
Lemma row_two (f : corner -> R) ds : List.length ds = 2%nat -> exists k x y, argmax_row (map f ds) ds = Ok (k, x) /\ other ds k = Ok y /\ In x ds /\ In y ds.
Proof.
  intro H. apply two in H. destruct H as [a [b ->]]. destruct (pick2 (argmax (map f [a; b])) a b (argmax_two (map f [a; b]) eq_refl)) as [x [y [Ex [Ey [Ix Iy]]]]].
  exists (argmax (map f [a; b])), x, y. unfold argmax_row. rewrite Ex. cbn [rbind]. auto.
Qed.
Lemma grid_like_ok la lo cs : List.length (ups la cs) = 2%nat -> List.length (downs la cs) = 2%nat -> exists w, wrong_grid_like la lo cs = Ok w.
Proof.
  intros U D. unfold wrong_grid_like.
  destruct (row_two (fun d => - clat d) (shifted la lo (ups la cs)) ltac:(rewrite shifted_length; exact U)) as [k [x [y [E1 [E2 _]]]]].
  destruct (row_two clat (shifted la lo (downs la cs)) ltac:(rewrite shifted_length; exact D)) as [k' [x' [y' [E1' [E2' _]]]]].
  cbn zeta. rewrite E1. cbn [rbind]. rewrite E1'. cbn [rbind]. rewrite E2. cbn [rbind]. destruct (ltb _ _); [eexists; reflexivity|]. rewrite E2'. cbn [rbind]. destruct (ltb _ _); eexists; reflexivity.
Qed.
Lemma shifted_index la lo cs c : In c (shifted la lo cs) -> exists c', In c' cs /\ cidx c' = cidx c.
Proof. unfold shifted. intro H. apply in_map_iff in H. destruct H as [c' [<- H]]. exists c'. auto. Qed.
Lemma by_index_ok cs c : In c cs -> exists c', by_index cs (cidx c) = Ok c' /\ In c' cs /\ cidx c' = cidx c.
Proof.
  intro H. unfold by_index. destruct (filter (fun c' => (cidx c' =? cidx c)%Z) cs) as [|c' l] eqn:E.
  - exfalso. assert (X : In c (filter (fun c' => (cidx c' =? cidx c)%Z) cs)) by (apply filter_In; split; [exact H|apply Z.eqb_refl]). rewrite E in X. exact X.
  - exists c'. split; [reflexivity|]. assert (X : In c' (filter (fun c' => (cidx c' =? cidx c)%Z) cs)) by (rewrite E; now left). apply filter_In in X. destruct X as [X1 X2]. apply Z.eqb_eq in X2. auto.
Qed.
Lemma best_ok la lo cs : List.length (ups la cs) = 2%nat -> List.length (downs la cs) = 2%nat -> exists w, wrong_best_grid_like la lo cs = Ok w.
Proof.
  intros U D. unfold wrong_best_grid_like. cbn zeta. set (cl := nthc cs (argmin (map (fun c => Rabs (clon c - lo)) cs))).
  destruct (row_two (fun c => - Rabs (clon c)) (shifted la (clon cl) (downs la cs)) ltac:(rewrite shifted_length; exact D)) as [k [d [d' [E1 [E2 [I1 I2]]]]]].
  destruct (row_two (fun c => - Rabs (clon c)) (shifted la (clon cl) (ups la cs)) ltac:(rewrite shifted_length; exact U)) as [k' [u [u' [F1 [F2 [J1 J2]]]]]].
  rewrite E1. cbn [rbind]. rewrite E2. cbn [rbind]. rewrite F1. cbn [rbind]. rewrite F2. cbn [rbind]. destruct (ltb _ 0); [|eexists; reflexivity].
  assert (Q : forall side c, In c (shifted la (clon cl) (side la cs)) -> (forall x, In x (side la cs) -> In x cs) -> exists c', by_index cs (cidx c) = Ok c').
  { intros side c Hc Hs. destruct (shifted_index _ _ _ _ Hc) as [c0 [H0 <-]]. destruct (by_index_ok cs c0 (Hs _ H0)) as [c' [H1 _]]. exists c'. exact H1. }
  assert (Su : forall x, In x (ups la cs) -> In x cs) by (intros x Hx; apply filter_In in Hx; tauto). assert (Sd : forall x, In x (downs la cs) -> In x cs) by (intros x Hx; apply filter_In in Hx; tauto).
  destruct (Q downs d I1 Sd) as [cd Ed]. destruct (Q downs d' I2 Sd) as [cd' Ed']. destruct (Q ups u J1 Su) as [cu Eu]. destruct (Q ups u' J2 Su) as [cu' Eu'].
  destruct (leb _ _); repeat (first [rewrite Ed|rewrite Ed'|rewrite Eu|rewrite Eu']; cbn [rbind]); destruct (in_triangle _ _ _ _); repeat (first [rewrite Ed|rewrite Ed'|rewrite Eu|rewrite Eu']; cbn [rbind]); eexists; reflexivity.
Qed.
