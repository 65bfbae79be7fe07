(** * Sums of rounded windows *)
From Coq Require Import ZArith QArith Qcanon Qcabs Reals Qreals Lia Lra List.
From Verif Require Import Base Num Float64 Aggregator Spec_Aggregation Base_P Num_P Aggregator_P Aggregator_P2 Float64_P Float_Agg_P.
Import ListNotations.
Local Open Scope Z_scope.

Lemma chain_tele s (w : Z -> Qc) a l : chain s a l -> l <> [] ->
  Qsum (map (fun t => w t - w (t - s)%Z)%Qc l) = (w (last l 0%Z) - w (a - s)%Z)%Qc.
Proof.
  induction 1 as [a|a l Hc IH]; intro Hne; [contradiction|]. cbn [map Qsum fold_right].
  destruct l as [|b l].
  - cbn [map fold_right last]. ring.
  - fold (Qsum (map (fun t => w t - w (t - s)%Z)%Qc (b :: l))). rewrite IH by discriminate.
    replace (a + s - s) with a by lia. change (last (a :: b :: l) 0) with (last (b :: l) 0). ring.
Qed.
Lemma Qsum_scale {X} (f : X -> Qc) c l : Qsum (map (fun t => f t * c)%Qc l) = (Qsum (map f l) * c)%Qc.
Proof. induction l as [|x l IH]; cbn [map Qsum fold_right]; [ring|]. fold (Qsum (map (fun t => f t * c)%Qc l)) (Qsum (map f l)). rewrite IH. ring. Qed.

Lemma total_err (u a : Qc) es rs :
  Forall2 (fun e r => (0 <= e)%Qc /\ (Qcabs (r - e) <= u * Qcabs e + a)%Qc) es rs ->
  (Qcabs (Qsum rs - Qsum es) <= u * Qsum es + ZQ (Z.of_nat (List.length rs)) * a)%Qc.
Proof.
  induction 1 as [|e r es rs [He H] HF IH].
  - cbn [Qsum fold_right List.length]. change (Z.of_nat 0) with 0. replace (0 - 0)%Qc with 0%Qc by ring. replace (u * 0 + ZQ 0 * a)%Qc with 0%Qc.
    + apply Qle_refl.
    + change (ZQ 0) with 0%Qc. ring.
  - cbn [Qsum fold_right List.length]. fold (Qsum es) (Qsum rs).
    apply QR_le in He, H, IH. apply QR_le.
    rewrite !QR_add, !QR_mul, !QR_abs, !QR_sub, ?QR_add, ?QR_ZQ, ?QR_0 in *.
    rewrite Nat2Z.inj_succ, succ_IZR.
    rewrite (Rabs_pos_eq (QR e)) in H by exact He.
    replace (QR r + QR (Qsum rs) - (QR e + QR (Qsum es)))%R with ((QR r - QR e) + (QR (Qsum rs) - QR (Qsum es)))%R by ring.
    apply Rle_trans with (1 := Rabs_triang _ _). lra.
Qed.

(** the steps of the windows returned by an accumulation *)
Lemma window_steps stype input unit s half force start end_ sec values out :
  let g := aggr_init stype input unit s "accumulation"%string half force start end_ sec in
  0 < s -> do_manipulation g values = Ok out ->
  exists iters, py_range (first_window start s) (end_ + 1) s = Ok iters /\
    Forall2 (fun t kv => s_end (fst kv) = t /\ s_start (fst kv) = t - s) iters out.
Proof.
  intros g Hs Hrun. unfold do_manipulation in Hrun. cbn in Hrun. unfold accumulation in Hrun.
  apply rbind_ok in Hrun as [st [Hrun Ho]]. injection Ho as <-.
  destruct (accumulation_shape g values st Hs Hrun) as [k0 [a0 [rest [iters [_ [Er [_ HF]]]]]]].
  exists iters. split; [exact Er|]. clear Er.
  induction HF as [|t kv l l' [H _] HF IH]; [constructor|]. constructor; [|exact IH]. rewrite H. cbn [s_end s_start]. split; reflexivity.
Qed.
