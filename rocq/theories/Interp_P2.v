(** * Interp_P2: what an identifier says *)
From Verif Require Import Base Num PyStr Writers Config Spec_Config GribInterp Reader Interp Spec_Interp Base_P Num_P PyStr_P Dec_P Writers_P Writers_P2 Config_P2 Interp_P.
From Coq Require Import DecimalString.
Local Open Scope string_scope.

(** ** cutting a string *)
Definition head_not (p : ascii -> bool) (s : string) : Prop := match s with String c _ => p c = false | EmptyString => True end.
Lemma span_inj p a b : forall x y, sforall p a = true -> sforall p b = true -> head_not p x -> head_not p y -> a +++ x = b +++ y -> a = b /\ x = y.
Proof.
  revert b. induction a as [|c a IH]; intros [|d b] x y Ha Hb Hx Hy H; cbn [String.append sforall] in *.
  - auto.
  - subst x. cbn [head_not] in Hx. apply Bool.andb_true_iff in Hb as [Hd _]. congruence.
  - subst y. cbn [head_not] in Hy. apply Bool.andb_true_iff in Ha as [Hd _]. congruence.
  - apply Bool.andb_true_iff in Ha as [_ Ha]. apply Bool.andb_true_iff in Hb as [_ Hb]. injection H as -> H. destruct (IH b x y Ha Hb Hx Hy H) as [-> ->]. auto.
Qed.
Definition tok (c : ascii) : bool := (negb (Ascii.eqb c "_") && negb (Ascii.eqb c "$"))%bool.
Lemma tok_cut a b x y : sforall tok a = true -> sforall tok b = true -> a +++ "_" +++ x = b +++ "_" +++ y -> a = b /\ x = y.
Proof. intros Ha Hb H. destruct (span_inj tok a b ("_" +++ x) ("_" +++ y) Ha Hb eq_refl eq_refl H) as [-> E]. apply sapp_inj_l in E. auto. Qed.
Lemma tok_cut_d a b x y : sforall tok a = true -> sforall tok b = true -> a +++ "$" +++ x = b +++ "$" +++ y -> a = b /\ x = y.
Proof. intros Ha Hb H. destruct (span_inj tok a b ("$" +++ x) ("$" +++ y) Ha Hb eq_refl eq_refl H) as [-> E]. apply sapp_inj_l in E. auto. Qed.

(** ** characters of numbers *)
Definition num_char (c : ascii) : bool := (is_digit c || Ascii.eqb c "-" || Ascii.eqb c ".")%bool.
Lemma num_tok c : num_char c = true -> tok c = true.
Proof. unfold tok. destruct (Ascii.eqb_spec c "_") as [->|_]; [discriminate|]. destruct (Ascii.eqb_spec c "$") as [->|_]; [discriminate|reflexivity]. Qed.
Lemma int_num s : sforall is_int_char s = true -> sforall num_char s = true.
Proof. apply sforall_impl. intros c H. unfold is_int_char, num_char in *. rewrite H. reflexivity. Qed.
Lemma str_num z : sforall num_char (str_of_Z z) = true. Proof. apply int_num, str_of_Z_chars. Qed.
Lemma str_tok z : sforall tok (str_of_Z z) = true. Proof. apply (sforall_impl num_char); [exact num_tok|apply str_num]. Qed.
Lemma sforall_srepeat p c n : p c = true -> sforall p (srepeat c n) = true.
Proof. intro H. induction n as [|n IH]; cbn [srepeat sforall]; [reflexivity|now rewrite H, IH]. Qed.
Lemma digits2_num z : sforall num_char (digits2 z) = true.
Proof. unfold digits2. rewrite sforall_app, str_num, sforall_srepeat; reflexivity. Qed.
Lemma digits4_num z : sforall num_char (digits4 z) = true.
Proof. unfold digits4. rewrite sforall_app, str_num, sforall_srepeat; reflexivity. Qed.
Lemma fmt2_num q : sforall num_char (fmt2 q) = true.
Proof. unfold fmt2. rewrite !sforall_app, str_num, digits2_num. destruct (Qc_ltb q 0); reflexivity. Qed.
Lemma num_tok_s s : sforall num_char s = true -> sforall tok s = true. Proof. apply sforall_impl. exact num_tok. Qed.
Lemma fmt2_tok q : sforall tok (fmt2 q) = true. Proof. apply num_tok_s, fmt2_num. Qed.
Lemma fmt4_tok x : sforall tok (fmt4 x) = true.
Proof. destruct x as [q| | |]; try reflexivity. cbn [fmt4]. apply num_tok_s. rewrite !sforall_app, str_num, digits4_num. destruct (Qc_ltb q 0); reflexivity. Qed.
Lemma sforall_rstrip p q s : sforall p s = true -> sforall p (rstrip q s) = true.
Proof. intro H. destruct (rstrip_spec q s) as [b [E _]]. rewrite E, sforall_app in H. now apply Bool.andb_true_iff in H. Qed.
Lemma fmt_long_tok x : sforall tok (fmt_long x) = true.
Proof. unfold fmt_long. apply sforall_rstrip, sforall_rstrip, fmt4_tok. Qed.

(** ** non-negative integers: digits only *)
Lemma str_pos z : (0 <= z)%Z -> sforall is_digit (str_of_Z z) = true /\ str_of_Z z <> "".
Proof.
  intro H. unfold str_of_Z. assert (G : exists u, Z.to_int z = Decimal.Pos u) by (destruct z; [exists (Decimal.D0 Decimal.Nil); reflexivity|cbn [Z.to_int]; eauto|lia]).
  destruct G as [u ->]. cbn [NilZero.string_of_int]. split; [apply uint_digits0|]. destruct u; discriminate.
Qed.
Definition no_dot (c : ascii) : bool := negb (Ascii.eqb c ".").
Lemma int_no_dot s : sforall is_int_char s = true -> sforall no_dot s = true.
Proof. apply sforall_impl. intros c. now apply int_char_neq. Qed.
Lemma str_no_dot z : sforall no_dot (str_of_Z z) = true. Proof. apply int_no_dot, str_of_Z_chars. Qed.
Lemma str_not_minus z : (0 <= z)%Z -> forall t s, str_of_Z z +++ t <> "-" +++ s.
Proof.
  intros Hz t s E. destruct (str_pos z Hz) as [H1 H2]. destruct (str_of_Z z) as [|c x]; [congruence|]. cbn in E. injection E as -> _. cbn in H1. discriminate H1.
Qed.

(** ** fixed number of decimals *)
Lemma dec2_table : forallb (fun n => match Z_of_str (digits2 (Z.of_nat n)) with Some z => Z.eqb z (Z.of_nat n) | None => false end) (seq 0 100) = true.
Proof. vm_compute. reflexivity. Qed.
Definition dec4_ok (z : Z) : bool :=
  (match Z_of_str (digits4 z) with Some y => Z.eqb y z | None => false end && Nat.eqb (String.length (digits4 z)) 4 && sforall is_digit (digits4 z))%bool.
Lemma dec4_table : forallb (fun a => forallb (fun b => dec4_ok (100 * Z.of_nat a + Z.of_nat b)) (seq 0 100)) (seq 0 100) = true.
Proof. vm_compute. reflexivity. Qed.
Lemma digits2_back z : (0 <= z < 100)%Z -> Z_of_str (digits2 z) = Some z.
Proof.
  intro H. pose proof (proj1 (forallb_forall _ _) dec2_table (Z.to_nat z)) as G. cbv beta in G. rewrite Z2Nat.id in G by lia.
  assert (Hi : In (Z.to_nat z) (seq 0 100)) by (apply in_seq; lia). specialize (G Hi). destruct (Z_of_str (digits2 z)) as [y|]; [|discriminate]. apply Z.eqb_eq in G. now subst.
Qed.
Lemma digits4_back z : (0 <= z < 10000)%Z -> Z_of_str (digits4 z) = Some z /\ String.length (digits4 z) = 4%nat /\ sforall is_digit (digits4 z) = true.
Proof.
  intro H. pose proof (proj1 (forallb_forall _ _) dec4_table (Z.to_nat (z / 100))) as G. cbv beta in G.
  assert (H1 : (0 <= z / 100 < 100)%Z) by (split; [apply Z.div_pos; lia|apply Z.div_lt_upper_bound; lia]). assert (H2 : (0 <= z mod 100 < 100)%Z) by (apply Z.mod_pos_bound; lia).
  assert (Hi : In (Z.to_nat (z / 100)) (seq 0 100)) by (apply in_seq; lia). specialize (G Hi).
  pose proof (proj1 (forallb_forall _ _) G (Z.to_nat (z mod 100))) as G'. cbv beta in G'. assert (Hj : In (Z.to_nat (z mod 100)) (seq 0 100)) by (apply in_seq; lia). specialize (G' Hj).
  rewrite !Z2Nat.id in G' by lia. rewrite <- Z.div_mod in G' by lia. unfold dec4_ok in G'.
  rewrite !Bool.andb_true_iff in G'. destruct G' as [[G1 G2] G3]. destruct (Z_of_str (digits4 z)) as [y|]; [|discriminate]. apply Z.eqb_eq in G1. apply Nat.eqb_eq in G2. subst. auto.
Qed.

(** the sign and the integer part *)
Definition signed (q : Qc) (n : Z) : string := (if Qc_ltb q 0 then "-" else "") +++ str_of_Z n.
Lemma signed_no_dot q n : sforall no_dot (signed q n) = true.
Proof. unfold signed. rewrite sforall_app, str_no_dot. destruct (Qc_ltb q 0); reflexivity. Qed.
Lemma signed_inj q n q' n' : (0 <= n)%Z -> (0 <= n')%Z -> signed q n = signed q' n' -> Qc_ltb q 0 = Qc_ltb q' 0 /\ n = n'.
Proof.
  unfold signed. intros H H' E. destruct (Qc_ltb q 0), (Qc_ltb q' 0); cbn [String.append] in E.
  - injection E as E. apply str_of_Z_inj in E. auto.
  - exfalso. apply (str_not_minus n' H' "" (str_of_Z n)). rewrite sapp_nil_r. symmetry. exact E.
  - exfalso. apply (str_not_minus n H "" (str_of_Z n')). rewrite sapp_nil_r. exact E.
  - apply str_of_Z_inj in E. auto.
Qed.
Lemma around_sign q k : (0 < k)%Z -> (Qc_ltb q 0 = true -> (around (q * ZQ k) <= 0)%Z) /\ (Qc_ltb q 0 = false -> (0 <= around (q * ZQ k))%Z).
Proof.
  intro Hk. apply ZQ_pos in Hk. split; intro H.
  - apply Qc_ltb_spec in H. apply (proj2 (ZQ_le _ _)). apply around_le. rewrite ZQ_0. qcnra.
  - apply Qc_ltb_false in H. apply (proj2 (ZQ_le _ _)). apply around_ge. rewrite ZQ_0. qcnra.
Qed.
Lemma around_same q q' k : (0 < k)%Z -> around (q * ZQ k) = around (q' * ZQ k) -> ((q - q') * ZQ k <= 1 /\ (q' - q) * ZQ k <= 1)%Qc.
Proof.
  intros Hk E. destruct (around_close (q * ZQ k)) as [H1 H2]. destruct (around_close (q' * ZQ k)) as [H3 H4]. rewrite E in *. unfold half in *.
  split; qclra.
Qed.
Lemma abs_sign_eq q q' a b : Qc_ltb q 0 = Qc_ltb q' 0 -> Z.abs a = Z.abs b -> (Qc_ltb q 0 = true -> (a <= 0)%Z) -> (Qc_ltb q 0 = false -> (0 <= a)%Z) ->
  (Qc_ltb q' 0 = true -> (b <= 0)%Z) -> (Qc_ltb q' 0 = false -> (0 <= b)%Z) -> a = b.
Proof. intros E H H1 H2 H3 H4. rewrite <- E in *. destruct (Qc_ltb q 0); [specialize (H1 eq_refl); specialize (H3 eq_refl)|specialize (H2 eq_refl); specialize (H4 eq_refl)]; lia. Qed.
Lemma fmt2_close q q' : fmt2 q = fmt2 q' -> ((q - q') * ZQ 100 <= 1 /\ (q' - q) * ZQ 100 <= 1)%Qc.
Proof.
  intro E. apply around_same; [lia|]. unfold fmt2 in E. rewrite <- !sapp_assoc in E. fold (signed q (Z.abs (around (q * ZQ 100)) / 100)) in E. fold (signed q' (Z.abs (around (q' * ZQ 100)) / 100)) in E.
  rewrite !sapp_assoc in E. apply (span_inj no_dot) in E as [E1 E2]; [|apply signed_no_dot|apply signed_no_dot|reflexivity|reflexivity].
  apply sapp_inj_l in E2. apply signed_inj in E1 as [Es En]; [|apply Z.div_pos; lia|apply Z.div_pos; lia].
  assert (Em : (Z.abs (around (q * ZQ 100)) mod 100 = Z.abs (around (q' * ZQ 100)) mod 100)%Z).
  { pose proof (digits2_back (Z.abs (around (q * ZQ 100)) mod 100) (Z.mod_pos_bound _ 100 ltac:(lia))) as D1. rewrite E2, digits2_back in D1 by (apply Z.mod_pos_bound; lia). congruence. }
  assert (Ea : Z.abs (around (q * ZQ 100)) = Z.abs (around (q' * ZQ 100))).
  { rewrite (Z.div_mod (Z.abs (around (q * ZQ 100))) 100), (Z.div_mod (Z.abs (around (q' * ZQ 100))) 100) by lia. rewrite En, Em. reflexivity. }
  apply (abs_sign_eq q q'); try assumption; now apply around_sign.
Qed.

(** ** trailing zeros *)
Lemma rstrip_app p a b : sforall p b = true -> rstrip p (a +++ b) = rstrip p a.
Proof.
  intro H. induction a as [|c a IH]; cbn [String.append].
  - cbn [rstrip]. destruct b as [|d b]; [reflexivity|]. cbn [rstrip]. now rewrite H.
  - cbn [rstrip]. assert (E : sforall p (String c (a +++ b)) = sforall p (String c a)) by (change (String c (a +++ b)) with (String c a +++ b); rewrite sforall_app, H; apply Bool.andb_true_r). rewrite E, IH. reflexivity.
Qed.
Lemma rstrip_last p a c : p c = false -> rstrip p (a +++ String c "") = a +++ String c "".
Proof.
  intro H. induction a as [|d a IH]; cbn [String.append].
  - cbn [rstrip sforall]. now rewrite H.
  - cbn [rstrip]. assert (E : sforall p (String d (a +++ String c "")) = false) by (change (String d (a +++ String c "")) with (String d a +++ String c ""); rewrite sforall_app; cbn [sforall]; rewrite H; apply Bool.andb_false_r). rewrite E, IH. reflexivity.
Qed.
Lemma snoc_case s : s = "" \/ exists t c, s = t +++ String c "".
Proof.
  rewrite <- (rev_string_inv s). destruct (rev_string s) as [|c t]; [now left|right]. exists (rev_string t), c. change (String c t) with (String c "" +++ t). now rewrite rev_string_app.
Qed.
Lemma rstrip_cases p s : rstrip p s = "" \/ exists t c, rstrip p s = t +++ String c "" /\ p c = false.
Proof.
  induction s as [|d s IH]; [now left|]. cbn [rstrip]. destruct (sforall p (String d s)) eqn:E; [now left|right]. cbn [sforall] in E. destruct IH as [IH|[t [c [IH Hc]]]].
  - rewrite IH. exists "", d. split; [reflexivity|]. destruct (rstrip_spec p s) as [b [Eb Hb]]. rewrite IH in Eb. cbn [String.append] in Eb. subst b. rewrite Hb in E. now rewrite Bool.andb_true_r in E.
  - rewrite IH. exists (String d t), c. auto.
Qed.
Lemma zeros_repeat b : sforall (Ascii.eqb "0") b = true -> b = srepeat "0" (String.length b).
Proof. induction b as [|c b IH]; cbn [sforall String.length srepeat]; [reflexivity|]. intro H. apply Bool.andb_true_iff in H as [H1 H2]. apply Ascii.eqb_eq in H1. subst c. now rewrite <- IH. Qed.
Lemma strip_fixed A D : sforall no_dot A = true -> sforall is_digit D = true ->
  exists D0 Z0, D = D0 +++ Z0 /\ sforall (Ascii.eqb "0") Z0 = true /\
    rstrip (Ascii.eqb ".") (rstrip (Ascii.eqb "0") (A +++ "." +++ D)) = (if String.eqb D0 "" then A else A +++ "." +++ D0) /\ sforall is_digit D0 = true.
Proof.
  intros HA HD. destruct (rstrip_spec (Ascii.eqb "0") D) as [Z0 [ED HZ]]. exists (rstrip (Ascii.eqb "0") D), Z0. split; [exact ED|]. split; [exact HZ|].
  split; [|now apply sforall_rstrip].
  assert (E1 : rstrip (Ascii.eqb "0") (A +++ "." +++ D) = A +++ "." +++ rstrip (Ascii.eqb "0") D).
  { rewrite ED at 1. rewrite <- !sapp_assoc. rewrite rstrip_app by exact HZ. rewrite !sapp_assoc. destruct (rstrip_cases (Ascii.eqb "0") D) as [E0|[t [c [E0 Hc]]]].
    - rewrite E0. rewrite sapp_nil_r. now apply rstrip_last.
    - rewrite E0. rewrite <- !sapp_assoc. now apply rstrip_last. }
  rewrite E1. destruct (String.eqb_spec (rstrip (Ascii.eqb "0") D) "") as [E0|N0].
  - rewrite E0, sapp_nil_r. rewrite rstrip_app by reflexivity. destruct (snoc_case A) as [->|[t [c ->]]]; [reflexivity|]. apply rstrip_last. rewrite sforall_app in HA. apply Bool.andb_true_iff in HA as [_ HA]. cbn in HA. rewrite Bool.andb_true_r in HA.
    unfold no_dot in HA. apply Bool.negb_true_iff in HA. rewrite Ascii.eqb_sym. exact HA.
  - pose proof (sforall_rstrip is_digit (Ascii.eqb "0") D HD) as Hd. destruct (snoc_case (rstrip (Ascii.eqb "0") D)) as [Ex|[t [c Et]]]; [congruence|]. rewrite Et in *. rewrite <- !sapp_assoc. apply rstrip_last.
    rewrite sforall_app in Hd. apply Bool.andb_true_iff in Hd as [_ Hd]. cbn [sforall] in Hd. rewrite Bool.andb_true_r in Hd. destruct (Ascii.eqb_spec "." c) as [<-|_]; [discriminate Hd|reflexivity].
Qed.
Lemma fmt_long_close q q' : fmt_long (Fin q) = fmt_long (Fin q') -> ((q - q') * ZQ 10000 <= 1 /\ (q' - q) * ZQ 10000 <= 1)%Qc.
Proof.
  intro E. apply around_same; [lia|]. unfold fmt_long, fmt4 in E. rewrite <- !sapp_assoc in E.
  fold (signed q (Z.abs (around (q * ZQ 10000)) / 10000)) in E. fold (signed q' (Z.abs (around (q' * ZQ 10000)) / 10000)) in E. rewrite !sapp_assoc in E.
  destruct (digits4_back (Z.abs (around (q * ZQ 10000)) mod 10000) (Z.mod_pos_bound _ 10000 ltac:(lia))) as [B1 [L1 D1]].
  destruct (digits4_back (Z.abs (around (q' * ZQ 10000)) mod 10000) (Z.mod_pos_bound _ 10000 ltac:(lia))) as [B2 [L2 D2]].
  set (A := signed q (Z.abs (around (q * ZQ 10000)) / 10000)) in *. set (A' := signed q' (Z.abs (around (q' * ZQ 10000)) / 10000)) in *.
  set (D := digits4 (Z.abs (around (q * ZQ 10000)) mod 10000)) in *. set (D' := digits4 (Z.abs (around (q' * ZQ 10000)) mod 10000)) in *.
  destruct (strip_fixed A D (signed_no_dot _ _) D1) as [X [Z0 [EX [HZ [R1 _]]]]]. destruct (strip_fixed A' D' (signed_no_dot _ _) D2) as [Y [W0 [EY [HW [R2 _]]]]].
  rewrite R1, R2 in E. clear R1 R2.
  assert (G : A = A' /\ X = Y).
  { assert (N1 : sforall no_dot A = true) by apply signed_no_dot. assert (N2 : sforall no_dot A' = true) by apply signed_no_dot. clearbody A A'. revert E. clear - N1 N2. intro E.
    destruct (String.eqb_spec X "") as [->|NX], (String.eqb_spec Y "") as [->|NY].
    - auto.
    - rewrite <- (sapp_nil_r A) in E. apply (span_inj no_dot) in E as [_ E]; [discriminate E|exact N1|exact N2|exact I|reflexivity].
    - rewrite <- (sapp_nil_r A') in E. apply (span_inj no_dot) in E as [_ E]; [discriminate E|exact N1|exact N2|reflexivity|exact I].
    - apply (span_inj no_dot) in E as [-> E]; [|exact N1|exact N2|reflexivity|reflexivity]. apply sapp_inj_l in E. auto. }
  destruct G as [GA GX]. subst Y.
  assert (ED : D = D').
  { apply zeros_repeat in HZ. apply zeros_repeat in HW. assert (L : String.length Z0 = String.length W0) by (rewrite EX, slen_app in L1; rewrite EY, slen_app in L2; lia). rewrite EX, EY. rewrite HZ, HW, L. reflexivity. }
  assert (Em : (Z.abs (around (q * ZQ 10000)) mod 10000 = Z.abs (around (q' * ZQ 10000)) mod 10000)%Z) by (rewrite ED, B2 in B1; congruence).
  apply signed_inj in GA as [Es En]; [|apply Z.div_pos; lia|apply Z.div_pos; lia].
  assert (Ea : Z.abs (around (q * ZQ 10000)) = Z.abs (around (q' * ZQ 10000))).
  { rewrite (Z.div_mod (Z.abs (around (q * ZQ 10000))) 10000), (Z.div_mod (Z.abs (around (q' * ZQ 10000))) 10000) by lia. rewrite En, Em. reflexivity. }
  apply (abs_sign_eq q q'); try assumption; now apply around_sign.
Qed.

(** ** identifiers *)
Lemma pcr_id_cut m x m' x' : pcr_identifier m +++ "_" +++ x = pcr_identifier m' +++ "_" +++ x' -> alike m m' /\ x = x'.
Proof.
  intro E. unfold pcr_identifier in E. rewrite !sapp_assoc in E.
  apply tok_cut in E as [E1 E]; try apply str_tok. apply tok_cut in E as [E2 E]; try apply str_tok. apply tok_cut in E as [E3 E]; try apply str_tok.
  apply tok_cut in E as [E4 E]; try apply str_tok. apply tok_cut in E as [E5 E]; try apply fmt2_tok. apply tok_cut in E as [E6 E]; try apply fmt2_tok.
  split; [|exact E]. repeat (split; [now apply str_of_Z_inj|]). split; now apply fmt2_close.
Qed.
Lemma pcr_target_inj a b a' b' : pcr_target_id a b = pcr_target_id a' b' -> alike a a' /\ alike b b'.
Proof.
  unfold pcr_target_id. intro E. apply pcr_id_cut in E as [H E]. split; [exact H|]. apply (f_equal (fun s => s +++ "_" +++ "")) in E. now apply pcr_id_cut in E.
Qed.
Lemma nc_target_inj m m' : nc_identifier m = nc_identifier m' -> nc_alike m m'.
Proof.
  unfold nc_identifier. intro E. rewrite !sapp_assoc in E.
  apply tok_cut in E as [E1 E]; try apply str_tok. apply tok_cut in E as [E2 E]; try apply str_tok. apply tok_cut in E as [E3 E]; try apply str_tok.
  apply tok_cut in E as [E4 E]; try apply str_tok. apply tok_cut in E as [E5 E]; try apply fmt2_tok. apply tok_cut in E as [E6 E]; try apply fmt2_tok.
  apply tok_cut in E as [_ E]; try apply str_tok. apply tok_cut in E as [_ E]; try apply str_tok. apply tok_cut in E as [_ E]; try apply str_tok.
  apply tok_cut in E as [_ E]; try apply str_tok. apply tok_cut in E as [E7 E8]; try apply fmt2_tok.
  repeat (split; [now apply str_of_Z_inj|]). repeat split; now apply fmt2_close.
Qed.

Lemma show_tok o : sforall tok (show_opt_int o) = true. Proof. destruct o; [apply str_tok|reflexivity]. Qed.
Lemma letter_not_dollar s : sforall letter s = true -> sforall (fun c => negb (Ascii.eqb "$" c)) s = true.
Proof. apply sforall_impl. intros c H. destruct (Ascii.eqb_spec "$" c) as [<-|_]; [discriminate H|reflexivity]. Qed.
Lemma tok_not_dollar s : sforall tok s = true -> sforall (fun c => negb (Ascii.eqb "$" c)) s = true.
Proof. apply sforall_impl. intros c H. destruct (Ascii.eqb_spec "$" c) as [<-|_]; [discriminate H|reflexivity]. Qed.
Lemma replace_app_d a b : replace "$" "_" (a +++ b) = replace "$" "_" a +++ replace "$" "_" b.
Proof. rewrite !replace_char_char. induction a as [|c a IH]; [reflexivity|]. cbn [String.append smap]. now rewrite IH. Qed.
Lemma replace_none s : sforall (fun c => negb (Ascii.eqb "$" c)) s = true -> replace "$" "_" s = s.
Proof.
  rewrite replace_char_char. induction s as [|c s IH]; cbn [sforall smap]; [reflexivity|]. intro H. apply Bool.andb_true_iff in H as [H1 H2]. apply Bool.negb_true_iff in H1. rewrite H1, IH by exact H2. reflexivity.
Qed.

(** the six tokens of the identifier of a grid *)
Lemma build_id_form m g : build_id m = Ok g -> exists x last,
  dget String.eqb (gm_dbl m) "longitudeOfFirstGridPointInDegrees" = Some x /\
  (if key_missing m "longitudeOfLastGridPointInDegrees" then last = "M" else exists y, dget String.eqb (gm_dbl m) "longitudeOfLastGridPointInDegrees" = Some y /\ last = fmt_long y) /\
  sforall tok last = true /\
  g = fmt_long x +++ "$" +++ last +++ "$" +++ (if key_missing m "Ni" then "M" else show_opt_int (opt_int m "Ni")) +++ "$" +++ (if key_missing m "Nj" then "M" else show_opt_int (opt_int m "Nj")) +++ "$"
      +++ show_opt_int (opt_int m "numberOfValues") +++ "$" +++ show_opt_str m "gridType".
Proof.
  unfold build_id. destruct (dget String.eqb (gm_dbl m) "longitudeOfFirstGridPointInDegrees") as [x|]; [|discriminate].
  destruct (key_missing m "longitudeOfLastGridPointInDegrees").
  - cbn [rbind]. intro E. assert (Eg : g = fmt_long x +++ "$" +++ "M" +++ "$" +++ (if key_missing m "Ni" then "M" else show_opt_int (opt_int m "Ni")) +++ "$" +++ (if key_missing m "Nj" then "M" else show_opt_int (opt_int m "Nj")) +++ "$" +++ show_opt_int (opt_int m "numberOfValues") +++ "$" +++ show_opt_str m "gridType") by congruence.
    exists x, "M". auto.
  - destruct (dget String.eqb (gm_dbl m) "longitudeOfLastGridPointInDegrees") as [y|]; [|discriminate]. cbn [rbind]. intro E.
    exists x, (fmt_long y). split; [reflexivity|]. split; [exists y; auto|]. split; [apply fmt_long_tok|]. congruence.
Qed.
Definition points (m : gmsg) (k : string) : string := if key_missing m k then "M" else show_opt_int (opt_int m k).
Lemma points_tok m k : sforall tok (points m k) = true. Proof. unfold points. destruct (key_missing m k); [reflexivity|apply show_tok]. Qed.

(** the whole identifier of a table *)
Definition num_us (c : ascii) : bool := (num_char c || Ascii.eqb c "_")%bool.
Definition first_num (s : string) : Prop := match s with String c _ => is_int_char c = true | EmptyString => False end.
Lemma letter_int c : is_int_char c = true -> letter c = false.
Proof.
  unfold is_int_char, letter, is_digit. intro H. apply Bool.orb_true_iff in H as [H|H].
  - apply Bool.andb_true_iff in H as [H1 H2]. apply Nat.leb_le in H2. destruct (Nat.leb_spec 97 (code c)); [lia|]. cbn [andb orb]. destruct (Ascii.eqb_spec c "_") as [->|_]; [cbn in H2; lia|reflexivity].
  - apply Ascii.eqb_eq in H. subst c. reflexivity.
Qed.
Lemma suffix_inj m m' : In m (map fst suffixes) -> In m' (map fst suffixes) -> suffix_of m = suffix_of m' -> m = m'.
Proof.
  cbn [map fst suffixes]. intros H H' E. repeat (destruct H as [<-|H]; [repeat (destruct H' as [<-|H']; [first [reflexivity|discriminate E]|]); destruct H'|]). destruct H.
Qed.
Lemma suffix_head m : In m (map fst suffixes) -> head_not num_us (suffix_of m).
Proof. cbn [map fst suffixes]. intro H. repeat (destruct H as [<-|H]; [reflexivity|]). destruct H. Qed.
Lemma table_id_cut m g m' g' t t' md md' src src' n n' :
  build_id m = Ok g -> build_id m' = Ok g' -> sforall letter (show_opt_str m "gridType") = true -> sforall letter (show_opt_str m' "gridType") = true ->
  sforall num_us t = true -> sforall num_us t' = true -> first_num t -> first_num t' -> In md (map fst suffixes) -> In md' (map fst suffixes) ->
  table_id (mkReq g t md src n) = table_id (mkReq g' t' md' src' n') -> g = g' /\ t = t' /\ md = md'.
Proof.
  intros B B' L L' N N' F F' M M' E.
  destruct (build_id_form m g B) as [x [last [_ [_ [Tl Eg]]]]]. destruct (build_id_form m' g' B') as [x' [last' [_ [_ [Tl' Eg']]]]].
  fold (points m "Ni") in Eg. fold (points m "Nj") in Eg. fold (points m' "Ni") in Eg'. fold (points m' "Nj") in Eg'.
  unfold table_id in E. cbn [q_grid q_target q_mode] in E. rewrite Eg, Eg' in E. rewrite !replace_app_d in E.
  rewrite !(replace_none (fmt_long _)) in E by (apply tok_not_dollar, fmt_long_tok). rewrite (replace_none last), (replace_none last') in E by (apply tok_not_dollar; assumption).
  rewrite !(replace_none (points _ _)) in E by (apply tok_not_dollar, points_tok). rewrite !(replace_none (show_opt_int _)) in E by (apply tok_not_dollar, show_tok).
  rewrite !(replace_none (show_opt_str _ _)) in E by (apply letter_not_dollar; assumption). change (replace "$" "_" "$") with "_" in E. rewrite !sapp_assoc in E.
  apply sapp_inj_l in E. apply tok_cut in E as [E1 E]; try apply fmt_long_tok. apply tok_cut in E as [E2 E]; try assumption.
  apply tok_cut in E as [E3 E]; try apply points_tok. apply tok_cut in E as [E4 E]; try apply points_tok. apply tok_cut in E as [E5 E]; try apply show_tok.
  rewrite <- !(sapp_assoc _ "_") in E. apply (span_inj letter) in E as [E6 E].
  2: rewrite sforall_app, L; reflexivity. 2: rewrite sforall_app, L'; reflexivity.
  2: destruct t as [|c t]; [destruct F|now apply letter_int]. 2: destruct t' as [|c t']; [destruct F'|now apply letter_int].
  apply (span_inj num_us) in E as [E7 E8]; [|assumption|assumption|now apply suffix_head|now apply suffix_head].
  split; [|split; [exact E7|now apply suffix_inj]]. rewrite Eg, Eg', E1, E2, E3, E4, E5. apply sapp_inj_r in E6. now rewrite E6.
Qed.
Lemma num_us_tok s : sforall num_char s = true -> sforall num_us s = true. Proof. apply sforall_impl. intros c H. unfold num_us. now rewrite H. Qed.
Lemma str_first z t : first_num (str_of_Z z +++ t).
Proof.
  pose proof (str_of_Z_chars z) as H. assert (N : str_of_Z z <> "").
  { destruct (Z_lt_le_dec z 0) as [L|L]; [|now apply str_pos]. destruct z as [|p|p]; try lia. unfold str_of_Z. discriminate. }
  destruct (str_of_Z z) as [|c s]; [congruence|]. cbn in *. now apply Bool.andb_true_iff in H.
Qed.
Lemma pcr_target_chars a b : sforall num_us (pcr_target_id a b) = true /\ first_num (pcr_target_id a b).
Proof.
  split; [|unfold pcr_target_id, pcr_identifier; rewrite !sapp_assoc; apply str_first].
  unfold pcr_target_id, pcr_identifier. rewrite !sforall_app, !(num_us_tok (str_of_Z _)) by apply str_num. rewrite !(num_us_tok (fmt2 _)) by apply fmt2_num. reflexivity.
Qed.
Lemma nc_target_chars m : sforall num_us (nc_identifier m) = true /\ first_num (nc_identifier m).
Proof.
  split; [|unfold nc_identifier; rewrite !sapp_assoc; apply str_first].
  unfold nc_identifier. rewrite !sforall_app, !(num_us_tok (str_of_Z _)) by apply str_num. rewrite !(num_us_tok (fmt2 _)) by apply fmt2_num. reflexivity.
Qed.
