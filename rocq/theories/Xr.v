(** * Xr: real numbers with infinities and NaN, for the code that uses square
    roots, exponentials and cosines. Rounding is not modelled. *)
From Verif Require Import Base Num.
From Coq Require Export Reals Lra.
Local Open Scope R_scope.

(** a float64 *)
Inductive xr : Type := XF (r : R) | XInf | XMinf | XNaN.
Definition xopp (a : xr) : xr := match a with XF r => XF (- r) | XInf => XMinf | XMinf => XInf | XNaN => XNaN end.
Definition xadd (a b : xr) : xr :=
  match a, b with
  | XNaN, _ | _, XNaN => XNaN
  | XF x, XF y => XF (x + y)
  | XF _, y => y
  | x, XF _ => x
  | XInf, XInf => XInf
  | XMinf, XMinf => XMinf
  | _, _ => XNaN
  end.
Definition xsub (a b : xr) : xr := xadd a (xopp b).
Definition xinf_times (r : R) (pos : bool) : xr :=
  if Req_EM_T r 0 then XNaN else if Rlt_dec 0 r then (if pos then XInf else XMinf) else (if pos then XMinf else XInf).
Definition xmul (a b : xr) : xr :=
  match a, b with
  | XNaN, _ | _, XNaN => XNaN
  | XF x, XF y => XF (x * y)
  | XF x, XInf | XInf, XF x => xinf_times x true
  | XF x, XMinf | XMinf, XF x => xinf_times x false
  | XInf, XInf | XMinf, XMinf => XInf
  | XInf, XMinf | XMinf, XInf => XMinf
  end.
(** the sign of zero is not modelled: x/0 is +inf for x > 0 *)
Definition xdiv (a b : xr) : xr :=
  match a, b with
  | XNaN, _ | _, XNaN => XNaN
  | XF x, XF y => if Req_EM_T y 0 then xinf_times x true else XF (x / y)
  | XF _, _ => XF 0
  | XInf, XF y => if Rlt_dec y 0 then XMinf else XInf
  | XMinf, XF y => if Rlt_dec y 0 then XInf else XMinf
  | _, _ => XNaN
  end.
Definition xsum (l : list xr) : xr := fold_left xadd l (XF 0).
(** np.nan_to_num(x, nan=1) *)
Definition max_float : R := IZR (2 ^ 1024 - 2 ^ 971).
Definition nan_to_one (x : xr) : xr := match x with XNaN => XF 1 | XInf => XF max_float | XMinf => XF (- max_float) | XF r => XF r end.

(** ** lemmas *)
Lemma xdiv_fin x y : y <> 0 -> xdiv (XF x) (XF y) = XF (x / y).
Proof. intro H. unfold xdiv. destruct (Req_EM_T y 0); [contradiction|reflexivity]. Qed.
Lemma xdiv_0_0 : xdiv (XF 0) (XF 0) = XNaN.
Proof. unfold xdiv, xinf_times. destruct (Req_EM_T 0 0); [|congruence]. reflexivity. Qed.
Fixpoint rsum (l : list R) : R := match l with [] => 0 | x :: r => x + rsum r end.
Lemma xsum_fin_acc l a : fold_left xadd (map XF l) (XF a) = XF (a + rsum l).
Proof. revert a. induction l as [|x l IH]; intro a; cbn [map fold_left rsum]; [f_equal; ring|]. cbn [xadd]. rewrite IH. f_equal. ring. Qed.
Lemma xsum_fin l : xsum (map XF l) = XF (rsum l).
Proof. unfold xsum. rewrite xsum_fin_acc. f_equal. ring. Qed.
Lemma xsum_nan_acc l : fold_left xadd l XNaN = XNaN.
Proof. induction l as [|x l IH]; [reflexivity|]. cbn [fold_left]. destruct x; exact IH. Qed.
Lemma xsum_nan l : (forall x, In x l -> x = XNaN \/ exists r, x = XF r) -> In XNaN l -> xsum l = XNaN.
Proof.
  unfold xsum. generalize 0. induction l as [|x l IH]; intros a H Hin; [destruct Hin|]. cbn [fold_left].
  destruct (H x (or_introl eq_refl)) as [->|[r ->]].
  - cbn [xadd]. apply xsum_nan_acc.
  - cbn [xadd]. apply IH; [intros; apply H; now right|]. destruct Hin as [C|Hin]; [discriminate C|exact Hin].
Qed.
Lemma rsum_nonneg l : (forall x, In x l -> 0 <= x) -> 0 <= rsum l.
Proof. induction l as [|x l IH]; intro H; cbn [rsum]; [lra|]. assert (0 <= x) by (apply H; now left). assert (0 <= rsum l) by (apply IH; intros; apply H; now right). lra. Qed.
Lemma rsum_le_In l x : (forall y, In y l -> 0 <= y) -> In x l -> x <= rsum l.
Proof.
  induction l as [|a l IH]; intros H [].
  - subst. cbn [rsum]. assert (0 <= rsum l) by (apply rsum_nonneg; intros; apply H; now right). lra.
  - cbn [rsum]. assert (x <= rsum l) by (apply IH; [intros; apply H; now right|assumption]). assert (0 <= a) by (apply H; now left). lra.
Qed.
Lemma rsum_pos l x : (forall y, In y l -> 0 <= y) -> In x l -> 0 < x -> 0 < rsum l.
Proof. intros H Hx Hp. pose proof (rsum_le_In l x H Hx). lra. Qed.
Lemma rsum_div l c : rsum (map (fun x => x / c) l) = rsum l / c.
Proof. induction l as [|x l IH]; cbn [map rsum]; [unfold Rdiv; ring|]. rewrite IH. unfold Rdiv. ring. Qed.
Lemma rsum_zero l : (forall x, In x l -> x = 0) -> rsum l = 0.
Proof. induction l as [|x l IH]; intro H; [reflexivity|]. cbn [rsum]. rewrite (H x), IH; [ring| |now left]. intros; apply H; now right. Qed.
