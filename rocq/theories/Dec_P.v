(** * Dec_P: decimal notation, digit by digit. *)
From Verif Require Import Base PyStr Base_P PyStr_P Writers_P.
From Coq Require Import DecimalString DecimalFacts DecimalPos DecimalN DecimalZ.
Local Open Scope string_scope.

Definition digit_char (b : Z) : ascii := ascii_of_nat (48 + Z.to_nat b).

(** append the digit [b] at the end *)
Definition udig (b : Z) (d : Decimal.uint) : Decimal.uint :=
  match b with
  | 0 => Decimal.D0 d | 1 => Decimal.D1 d | 2 => Decimal.D2 d | 3 => Decimal.D3 d | 4 => Decimal.D4 d
  | 5 => Decimal.D5 d | 6 => Decimal.D6 d | 7 => Decimal.D7 d | 8 => Decimal.D8 d | _ => Decimal.D9 d
  end%Z.
Fixpoint usnoc (d : Decimal.uint) (b : Z) : Decimal.uint :=
  match d with
  | Decimal.Nil => udig b Decimal.Nil
  | Decimal.D0 d => Decimal.D0 (usnoc d b) | Decimal.D1 d => Decimal.D1 (usnoc d b)
  | Decimal.D2 d => Decimal.D2 (usnoc d b) | Decimal.D3 d => Decimal.D3 (usnoc d b)
  | Decimal.D4 d => Decimal.D4 (usnoc d b) | Decimal.D5 d => Decimal.D5 (usnoc d b)
  | Decimal.D6 d => Decimal.D6 (usnoc d b) | Decimal.D7 d => Decimal.D7 (usnoc d b)
  | Decimal.D8 d => Decimal.D8 (usnoc d b) | Decimal.D9 d => Decimal.D9 (usnoc d b)
  end.

Lemma digit_cases b : (0 <= b < 10)%Z -> b = 0%Z \/ b = 1%Z \/ b = 2%Z \/ b = 3%Z \/ b = 4%Z \/ b = 5%Z \/ b = 6%Z \/ b = 7%Z \/ b = 8%Z \/ b = 9%Z.
Proof. lia. Qed.

Lemma usnoc_acc d b acc : (0 <= b < 10)%Z ->
  Z.pos (Pos.of_uint_acc (usnoc d b) acc) = (10 * Z.pos (Pos.of_uint_acc d acc) + b)%Z.
Proof.
  intro Hb. revert acc. induction d as [|d IH|d IH|d IH|d IH|d IH|d IH|d IH|d IH|d IH|d IH]; intro acc; cbn [usnoc Pos.of_uint_acc]; try apply IH.
  destruct (digit_cases b Hb) as [->|[->|[->|[->|[->|[->|[->|[->|[->| ->]]]]]]]]]; cbn [udig Pos.of_uint_acc]; lia.
Qed.

Lemma usnoc_string d b : (0 <= b < 10)%Z ->
  NilEmpty.string_of_uint (usnoc d b) = NilEmpty.string_of_uint d +++ String (digit_char b) "".
Proof.
  intro Hb. induction d as [|d IH|d IH|d IH|d IH|d IH|d IH|d IH|d IH|d IH|d IH]; cbn [usnoc NilEmpty.string_of_uint append]; try (rewrite IH; reflexivity).
  destruct (digit_cases b Hb) as [->|[->|[->|[->|[->|[->|[->|[->|[->| ->]]]]]]]]]; reflexivity.
Qed.

Lemma str_of_Z_snoc a b : (0 < a)%Z -> (0 <= b < 10)%Z ->
  str_of_Z (10 * a + b) = str_of_Z a +++ String (digit_char b) "".
Proof.
  intros Ha Hb. unfold str_of_Z.
  destruct (Z.to_int a) as [d|d] eqn:E.
  2:{ destruct a; cbn in E; try discriminate; lia. }
  pose proof (to_int_normal a) as Hn. rewrite E in Hn. cbn [Decimal.norm] in Hn. injection Hn as Hn.
  assert (Ha2 : a = Z.of_int (Decimal.Pos d)) by (rewrite <- E; symmetry; apply DecimalZ.of_to).
  assert (Hd : match d with Decimal.Nil | Decimal.D0 _ => False | _ => True end).
  { destruct d; try exact I.
    - cbn in Hn. discriminate.
    - unfold Decimal.unorm in Hn. cbn [Decimal.nzhead] in Hn.
      destruct (Decimal.nzhead d) eqn:En; try discriminate.
      + injection Hn as <-. cbn in Ha2. lia.
      + exact (DecimalFacts.nzhead_nonzero _ _ En). }
  assert (Hval : (10 * a + b)%Z = Z.of_int (Decimal.Pos (usnoc d b))).
  { rewrite Ha2. unfold Z.of_int, Z.of_uint. destruct d; try contradiction; cbn [Pos.of_uint usnoc Z.of_N];
    rewrite usnoc_acc by assumption; reflexivity. }
  rewrite Hval, DecimalZ.to_of.
  assert (Hnorm : Decimal.norm (Decimal.Pos (usnoc d b)) = Decimal.Pos (usnoc d b)) by (destruct d; try contradiction; reflexivity).
  rewrite Hnorm. cbn [NilZero.string_of_int].
  assert (Hz : forall u, u <> Decimal.Nil -> NilZero.string_of_uint u = NilEmpty.string_of_uint u) by (intros u Hu; destruct u; [contradiction|reflexivity..]).
  rewrite !Hz by (destruct d; try contradiction; discriminate). now apply usnoc_string.
Qed.

Lemma str_of_Z_digit b : (0 <= b < 10)%Z -> str_of_Z b = String (digit_char b) "".
Proof. intro Hb. destruct (digit_cases b Hb) as [->|[->|[->|[->|[->|[->|[->|[->|[->| ->]]]]]]]]]; reflexivity. Qed.

Lemma dig_digit_char b : (0 <= b < 10)%Z -> is_digit (digit_char b) = true /\ (Z.of_nat (code (digit_char b)) - 48 = b)%Z.
Proof. intro Hb. destruct (digit_cases b Hb) as [->|[->|[->|[->|[->|[->|[->|[->|[->| ->]]]]]]]]]; split; reflexivity. Qed.
