(** * Facts about numbers and arrays *)
From Verif Require Import Base Num Base_P.
From Coq Require Import Lqa.
Local Open Scope Qc_scope.

(** ** Deciding linear facts on Qc by going to Q *)
Lemma Qc_this_plus x y : (this (x + y) == this x + this y)%Q.
Proof. apply Qred_correct. Qed.
Lemma Qc_this_mult x y : (this (x * y) == this x * this y)%Q.
Proof. apply Qred_correct. Qed.
Lemma Qc_this_opp x : (this (- x) == - this x)%Q.
Proof. apply Qred_correct. Qed.
Lemma Qc_this_minus x y : (this (x - y) == this x - this y)%Q.
Proof. unfold Qcminus. rewrite Qc_this_plus, Qc_this_opp. reflexivity. Qed.
Lemma Qc_this_inv x : (this (/ x) == / this x)%Q.
Proof. apply Qred_correct. Qed.
Lemma Qc_this_div x y : (this (x / y) == this x / this y)%Q.
Proof. unfold Qcdiv. rewrite Qc_this_mult, Qc_this_inv. reflexivity. Qed.
Lemma Qc_this_Q2Qc q : (this (Q2Qc q) == q)%Q.
Proof. apply Qred_correct. Qed.
Lemma Qc_eq_Qeq x y : x = y -> (this x == this y)%Q.
Proof. intros ->. reflexivity. Qed.
Lemma Qc_neq_Qeq x y : x <> y -> ~ (this x == this y)%Q.
Proof. intros H E. apply H. apply Qc_is_canon. exact E. Qed.

Ltac qc_push :=
  repeat (rewrite ?Qc_this_plus, ?Qc_this_mult, ?Qc_this_opp, ?Qc_this_minus, ?Qc_this_Q2Qc in * );
  unfold inject_Z in *.

Ltac qc_hyps :=
  repeat match goal with
  | H : @eq Qc _ _ |- _ => apply Qc_eq_Qeq in H
  | H : ?a <> ?b |- _ => match type of a with Qc => apply Qc_neq_Qeq in H end
  end.
Ltac qc_goal :=
  match goal with
  | |- @eq Qc _ _ => apply Qc_is_canon
  | _ => idtac
  end.
Ltac qc2q := unfold Qcle, Qclt, Qcminus in *; qc_hyps; qc_goal; qc_push.
Ltac qclra := qc2q; lra.
Ltac qcnra := qc2q; nra.

Lemma Qc_eqb_spec a b : Qc_eqb a b = true <-> a = b.
Proof. unfold Qc_eqb. destruct (Qc_eq_dec a b); split; congruence. Qed.
Lemma Qc_eqb_false a b : Qc_eqb a b = false <-> a <> b.
Proof. unfold Qc_eqb. destruct (Qc_eq_dec a b); split; congruence. Qed.
Lemma Qc_eqb_refl a : Qc_eqb a a = true.
Proof. apply Qc_eqb_spec. reflexivity. Qed.
Lemma Qc_ltb_spec a b : Qc_ltb a b = true <-> a < b.
Proof.
  unfold Qc_ltb. destruct (Qclt_le_dec a b); split; try congruence; intro H.
  exfalso. qclra.
Qed.
Lemma Qc_ltb_false a b : Qc_ltb a b = false <-> b <= a.
Proof.
  unfold Qc_ltb. destruct (Qclt_le_dec a b); split; try congruence; intro H.
  exfalso. qclra.
Qed.
Lemma Qc_leb_spec a b : Qc_leb a b = true <-> a <= b.
Proof. unfold Qc_leb. rewrite negb_true_iff, Qc_ltb_false. reflexivity. Qed.

(** ** Integers in Qc *)
Lemma ZQ_add a b : ZQ (a + b) = ZQ a + ZQ b.
Proof. unfold ZQ. apply Qc_is_canon. rewrite Qc_this_plus, !Qc_this_Q2Qc. rewrite inject_Z_plus. reflexivity. Qed.
Lemma ZQ_opp a : ZQ (- a) = - ZQ a.
Proof. unfold ZQ. apply Qc_is_canon. rewrite Qc_this_opp, !Qc_this_Q2Qc. reflexivity. Qed.
Lemma ZQ_sub a b : ZQ (a - b) = ZQ a - ZQ b.
Proof. unfold Z.sub, Qcminus. rewrite ZQ_add, ZQ_opp. reflexivity. Qed.
Lemma ZQ_mul a b : ZQ (a * b) = ZQ a * ZQ b.
Proof. unfold ZQ. apply Qc_is_canon. rewrite Qc_this_mult, !Qc_this_Q2Qc. rewrite inject_Z_mult. reflexivity. Qed.
Lemma ZQ_0 : ZQ 0 = 0.
Proof. apply Qc_is_canon. reflexivity. Qed.
Lemma ZQ_1 : ZQ 1 = 1.
Proof. apply Qc_is_canon. reflexivity. Qed.
Lemma ZQ_lt a b : (a < b)%Z <-> ZQ a < ZQ b.
Proof. unfold ZQ, Qclt. rewrite !Qc_this_Q2Qc. rewrite <- Zlt_Qlt. reflexivity. Qed.
Lemma ZQ_le a b : (a <= b)%Z <-> ZQ a <= ZQ b.
Proof. unfold ZQ, Qcle. rewrite !Qc_this_Q2Qc. rewrite <- Zle_Qle. reflexivity. Qed.
Lemma ZQ_inj a b : ZQ a = ZQ b -> a = b.
Proof.
  intro H. apply Z.le_antisymm; apply ZQ_le; rewrite H; apply Qcle_refl.
Qed.
Lemma ZQ_pos a : (0 < a)%Z -> 0 < ZQ a.
Proof. intro H. rewrite <- ZQ_0. apply (proj1 (ZQ_lt 0 a)). exact H. Qed.
Lemma ZQ_neq0 a : a <> 0%Z -> ZQ a <> 0.
Proof. intros H E. apply H. apply ZQ_inj. rewrite E, ZQ_0. reflexivity. Qed.
Lemma Qc_pos_neq0 a : 0 < a -> a <> 0.
Proof. intros H E. subst. exact (Qclt_not_eq _ _ H eq_refl). Qed.

(** division facts *)
Lemma Qcdiv_pos a b : 0 < a -> 0 < b -> 0 < a / b.
Proof.
  intros Ha Hb. unfold Qclt in *. rewrite Qc_this_div.
  apply Qlt_shift_div_l; [exact Hb|]. qc_push. change (this 0) with 0%Q in *. rewrite Qmult_0_l. exact Ha.
Qed.
Lemma Qcdiv_nonneg a b : 0 <= a -> 0 < b -> 0 <= a / b.
Proof.
  intros Ha Hb. unfold Qclt, Qcle in *. rewrite Qc_this_div.
  apply Qle_shift_div_l; [exact Hb|]. change (this 0) with 0%Q in *. rewrite Qmult_0_l. exact Ha.
Qed.
Lemma Qcdiv_le a b c : 0 < b -> a <= c * b -> a / b <= c.
Proof.
  intros Hb H. unfold Qclt, Qcle in *. rewrite Qc_this_div.
  apply Qle_shift_div_r; [exact Hb|]. rewrite Qc_this_mult in H. exact H.
Qed.
Lemma Qcdiv_ge a b c : 0 < b -> c * b <= a -> c <= a / b.
Proof.
  intros Hb H. unfold Qclt, Qcle in *. rewrite Qc_this_div.
  apply Qle_shift_div_l; [exact Hb|]. rewrite Qc_this_mult in H. exact H.
Qed.
Lemma Qcdiv_mul a b : b <> 0 -> a / b * b = a.
Proof. intro H. field. exact H. Qed.

(** ** num algebra *)
Lemma nadd_0_l x : nadd (Fin 0) x = x.
Proof. destruct x; simpl; try reflexivity. f_equal. ring. Qed.
Lemma nsub_fin x y : nsub (Fin x) (Fin y) = Fin (x - y).
Proof. reflexivity. Qed.
Lemma ndiv_fin x y : y <> 0 -> ndiv (Fin x) (Fin y) = Fin (x / y).
Proof. intro H. simpl. apply Qc_eqb_false in H. rewrite H. reflexivity. Qed.
Lemma Fin_inj a b : Fin a = Fin b -> a = b.
Proof. congruence. Qed.
Lemma num_same_spec a b : num_same a b = true <-> a = b.
Proof.
  destruct a, b; simpl; try (split; congruence).
  rewrite Qc_eqb_spec. split; congruence.
Qed.

(** the elementary sign facts behind the infinities *)
Lemma Qc_mul_eq0 a b : a * b = 0 -> a = 0 \/ b = 0.
Proof. apply Qcmult_integral. Qed.
Lemma Qc_mul_pos a b : 0 < a -> 0 < b -> 0 < a * b.
Proof. intros. qcnra. Qed.
Lemma Qc_mul_neg_pos a b : a < 0 -> 0 < b -> a * b < 0.
Proof. intros. qcnra. Qed.
Lemma Qc_mul_neg_neg a b : a < 0 -> b < 0 -> 0 < a * b.
Proof. intros. qcnra. Qed.
Lemma Qc_tri a : a = 0 \/ 0 < a \/ a < 0.
Proof.
  destruct (Qclt_le_dec 0 a) as [H|H]; [auto|].
  destruct (Qc_eq_dec a 0) as [E|E]; [auto|].
  right; right. apply Qcle_lt_or_eq in H as [H|H]; [exact H|contradiction].
Qed.

Lemma eqb_0_pos a : 0 < a -> Qc_eqb a 0 = false.
Proof. intro H. apply Qc_eqb_false. apply Qc_pos_neq0. exact H. Qed.
Lemma eqb_0_neg a : a < 0 -> Qc_eqb a 0 = false.
Proof. intro H. apply Qc_eqb_false. apply Qclt_not_eq. exact H. Qed.
Lemma ltb_0_neg a : a < 0 -> Qc_ltb 0 a = false.
Proof. intro H. apply Qc_ltb_false. apply Qclt_le_weak. exact H. Qed.
Lemma ltb_neg_0 a : a < 0 -> Qc_ltb a 0 = true.
Proof. apply Qc_ltb_spec. Qed.
Lemma ltb_pos_0 a : 0 < a -> Qc_ltb a 0 = false.
Proof. intro H. apply Qc_ltb_false. apply Qclt_le_weak. exact H. Qed.

Lemma inf_times_0 b : inf_times 0 b = NaN.
Proof. unfold inf_times. rewrite Qc_eqb_refl. reflexivity. Qed.
Lemma inf_times_pos a b : 0 < a -> inf_times a b = if b then PInf else MInf.
Proof.
  intro H. unfold inf_times. rewrite eqb_0_pos by exact H.
  apply Qc_ltb_spec in H. rewrite H. destruct b; reflexivity.
Qed.
Lemma inf_times_neg a b : a < 0 -> inf_times a b = if b then MInf else PInf.
Proof.
  intro H. unfold inf_times. rewrite eqb_0_neg, ltb_0_neg by exact H. destruct b; reflexivity.
Qed.

(** scaling by a finite factor is a morphism for every operation of the code *)
Definition nscale (k : Qc) (x : num) : num := nmul (Fin k) x.

Ltac tri k :=
  let H := fresh "H" in destruct (Qc_tri k) as [H|[H|H]];
  [subst k| | ];
  rewrite ?inf_times_0, ?(inf_times_pos k), ?(inf_times_neg k) by assumption.

Lemma nscale_0 k : nscale k (Fin 0) = Fin 0.
Proof. unfold nscale. simpl. f_equal. ring. Qed.

Lemma nscale_add k x y : nscale k (nadd x y) = nadd (nscale k x) (nscale k y).
Proof.
  unfold nscale. destruct x, y; simpl; try (f_equal; ring);
    tri k; simpl; try reflexivity.
Qed.
Lemma nscale_opp k x : nscale k (nopp x) = nopp (nscale k x).
Proof.
  unfold nscale. destruct x; simpl; try (f_equal; ring); tri k; reflexivity.
Qed.
Lemma nscale_sub k x y : nscale k (nsub x y) = nsub (nscale k x) (nscale k y).
Proof. unfold nsub. rewrite nscale_add, nscale_opp. reflexivity. Qed.

Lemma inf_times_mul k q b : inf_times (k * q) b = nmul (Fin k) (inf_times q b).
Proof.
  destruct (Qc_tri k) as [Hk|[Hk|Hk]], (Qc_tri q) as [Hq|[Hq|Hq]]; subst.
  - replace (0 * 0) with 0 by ring. rewrite inf_times_0. reflexivity.
  - replace (0 * q) with 0 by ring. rewrite inf_times_0, inf_times_pos by assumption.
    destruct b; simpl; rewrite inf_times_0; reflexivity.
  - replace (0 * q) with 0 by ring. rewrite inf_times_0, inf_times_neg by assumption.
    destruct b; simpl; rewrite inf_times_0; reflexivity.
  - replace (k * 0) with 0 by ring. rewrite inf_times_0. reflexivity.
  - assert (0 < k * q) by (apply Qc_mul_pos; assumption).
    rewrite !inf_times_pos by assumption. destruct b; simpl; rewrite inf_times_pos by assumption; reflexivity.
  - assert (k * q < 0) by (rewrite Qcmult_comm; apply Qc_mul_neg_pos; assumption).
    rewrite !inf_times_neg by assumption. destruct b; simpl; rewrite inf_times_pos by assumption; reflexivity.
  - replace (k * 0) with 0 by ring. rewrite inf_times_0. reflexivity.
  - assert (k * q < 0) by (apply Qc_mul_neg_pos; assumption).
    rewrite inf_times_neg, inf_times_pos by assumption. destruct b; simpl; rewrite inf_times_neg by assumption; reflexivity.
  - assert (0 < k * q) by (apply Qc_mul_neg_neg; assumption).
    rewrite (inf_times_neg q), (inf_times_pos (k * q)) by assumption. destruct b; simpl; rewrite inf_times_neg by assumption; reflexivity.
Qed.

Lemma nscale_mul k x f : nscale k (nmul x f) = nmul (nscale k x) f.
Proof.
  unfold nscale. destruct x as [q| | |], f as [p| | |]; simpl;
    rewrite ?inf_times_mul; try reflexivity; try (f_equal; ring);
    destruct (Qc_tri k) as [Hk|[Hk|Hk]]; try subst k; simpl;
    rewrite ?inf_times_0, ?(inf_times_pos k), ?(inf_times_neg k) by assumption; simpl;
    try reflexivity;
    destruct (Qc_tri p) as [Hp|[Hp|Hp]]; try subst p; simpl;
    rewrite ?inf_times_0, ?(inf_times_pos p), ?(inf_times_neg p) by assumption; simpl;
    rewrite ?inf_times_0, ?(inf_times_pos k), ?(inf_times_neg k) by assumption; reflexivity.
Qed.

Lemma nscale_div k x c : nscale k (ndiv x c) = ndiv (nscale k x) c.
Proof.
  unfold nscale. destruct x as [q| | |], c as [p| | |]; simpl; try reflexivity;
    try (f_equal; ring).
  { destruct (Qc_eqb p 0) eqn:E.
    + destruct (Qc_tri q) as [Hq|[Hq|Hq]]; subst.
      * replace (k * 0) with 0 by ring. rewrite Qc_eqb_refl. reflexivity.
      * rewrite eqb_0_pos by assumption. apply Qc_ltb_spec in Hq as Hl. rewrite Hl. simpl.
        destruct (Qc_tri k) as [Hk|[Hk|Hk]]; subst.
        -- replace (0 * q) with 0 by ring. rewrite Qc_eqb_refl, inf_times_0. reflexivity.
        -- assert (H : 0 < k * q) by (apply Qc_mul_pos; assumption).
           rewrite inf_times_pos, eqb_0_pos by assumption. apply Qc_ltb_spec in H. rewrite H. reflexivity.
        -- assert (H : k * q < 0) by (apply Qc_mul_neg_pos; assumption).
           rewrite inf_times_neg, eqb_0_neg, ltb_0_neg by assumption. reflexivity.
      * rewrite eqb_0_neg, ltb_0_neg by assumption. simpl.
        destruct (Qc_tri k) as [Hk|[Hk|Hk]]; subst.
        -- replace (0 * q) with 0 by ring. rewrite Qc_eqb_refl, inf_times_0. reflexivity.
        -- assert (H : k * q < 0) by (rewrite Qcmult_comm; apply Qc_mul_neg_pos; assumption).
           rewrite inf_times_pos, eqb_0_neg, ltb_0_neg by assumption. reflexivity.
        -- assert (H : 0 < k * q) by (apply Qc_mul_neg_neg; assumption).
           rewrite inf_times_neg, eqb_0_pos by assumption. apply Qc_ltb_spec in H. rewrite H. reflexivity.
    + simpl. f_equal. unfold Qcdiv. ring. }
  all: try (tri k; reflexivity).
  all: destruct (Qc_ltb _ 0) eqn:E; simpl; tri k; simpl; rewrite ?E; reflexivity.
Qed.

(** ** zipw / ew2 *)
Lemma zipw_length {A B C} (f : A -> B -> C) x y :
  List.length (zipw f x y) = Nat.min (List.length x) (List.length y).
Proof. revert y. induction x as [|a x IH]; intros [|b y]; simpl; auto. Qed.

Lemma nth_error_zipw {A B C} (f : A -> B -> C) x y i a b :
  nth_error x i = Some a -> nth_error y i = Some b -> nth_error (zipw f x y) i = Some (f a b).
Proof.
  revert y i. induction x as [|a0 x IH]; intros [|b0 y] [|i]; simpl; try discriminate.
  - intros H1 H2. injection H1 as <-. injection H2 as <-. reflexivity.
  - apply IH.
Qed.
Lemma nth_error_zipw_inv {A B C} (f : A -> B -> C) x y i c :
  nth_error (zipw f x y) i = Some c -> exists a b, nth_error x i = Some a /\ nth_error y i = Some b /\ c = f a b.
Proof.
  revert y i. induction x as [|a0 x IH]; intros [|b0 y] [|i]; simpl; try discriminate.
  - intro H. injection H as <-. eauto.
  - apply IH.
Qed.

Lemma ew2_ok {A B C} (f : A -> B -> C) x y : List.length x = List.length y -> ew2 f x y = Ok (zipw f x y).
Proof. intro H. unfold ew2. rewrite H, Nat.eqb_refl. reflexivity. Qed.
Lemma ew2_inv {A B C} (f : A -> B -> C) x y z : ew2 f x y = Ok z ->
  List.length x = List.length y /\ z = zipw f x y.
Proof.
  unfold ew2. destruct (Nat.eqb_spec (List.length x) (List.length y)); intro H; [|discriminate].
  injection H as <-. auto.
Qed.

Lemma zipw_zeros n d : List.length d = n -> zipw nadd (zeros n) d = d.
Proof.
  unfold zeros. revert d. induction n as [|n IH]; intros [|x d] H; cbn [List.length] in H;
    try discriminate; [reflexivity|].
  injection H as H. cbn [repeat zipw]. rewrite nadd_0_l. f_equal. apply IH. exact H.
Qed.
Lemma zeros_length n : List.length (zeros n) = n.
Proof. apply repeat_length. Qed.
Lemma ew2_zeros n d : List.length d = n -> ew2 nadd (zeros n) d = Ok d.
Proof.
  intro H. rewrite ew2_ok by (rewrite zeros_length; congruence). rewrite zipw_zeros by exact H. reflexivity.
Qed.
Lemma ew2_zeros_inv n d z : ew2 nadd (zeros n) d = Ok z -> z = d /\ List.length d = n.
Proof.
  intro H. apply ew2_inv in H as [Hl ->]. rewrite zeros_length in Hl.
  split; [apply zipw_zeros|]; congruence.
Qed.
Lemma nth_error_zeros n i : (i < n)%nat -> nth_error (zeros n) i = Some (Fin 0).
Proof.
  intro H. unfold zeros. rewrite nth_error_nth' with (d := Fin 0) by (rewrite repeat_length; exact H).
  rewrite nth_repeat. reflexivity.
Qed.
Lemma nth_error_map' {A B} (f : A -> B) l i x : nth_error l i = Some x -> nth_error (map f l) i = Some (f x).
Proof. intro H. rewrite nth_error_map, H. reflexivity. Qed.

Lemma adata_masked_where m d : adata (masked_where m d) = d.
Proof. unfold masked_where. destruct m as [l|]; [destruct (existsb _ l)|]; reflexivity. Qed.

Lemma masked_at_masked_where m d i :
  masked_at (masked_where m d) i = match m with Some l => nth i l false | None => false end.
Proof.
  unfold masked_where, masked_at. destruct m as [l|]; simpl; [|reflexivity].
  destruct (existsb (fun b => b) l) eqn:E; simpl; [reflexivity|].
  symmetry. destruct (nth_in_or_default i l false) as [H|H]; [|exact H].
  destruct (nth i l false) eqn:En; [|reflexivity].
  assert (existsb (fun b => b) l = true) by (apply existsb_exists; exists true; auto). congruence.
Qed.
