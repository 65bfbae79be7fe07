(** * Interp_P3: applying a table *)
From Verif Require Import Base Num PyStr Writers Config Spec_Config GribInterp Reader Interp Spec_Interp Base_P Num_P GribInterp_P.

Lemma used_index v mv k x : used v mv k x -> py_index (v ++ [mv]) k = Ok x.
Proof.
  intros H. unfold py_index. destruct H as [[H1 H2]|[-> ->]].
  - destruct (Z.ltb_spec k 0); [lia|]. destruct (Z.ltb_spec k 0); [lia|]. rewrite nth_error_app1 by lia. now rewrite H2.
  - destruct (Z.ltb_spec (Z.of_nat (List.length v)) 0); [lia|]. destruct (Z.ltb_spec (Z.of_nat (List.length v)) 0); [lia|].
    rewrite Nat2Z.id, nth_error_app2, Nat.sub_diag by lia. reflexivity.
Qed.
Lemma used_mapM v mv ks xs : Forall2 (used v mv) ks xs -> mapM (py_index (v ++ [mv])) ks = Ok xs.
Proof.
  intro H. induction H as [|k x ks xs H1 H2 IH]; cbn [mapM]; [reflexivity|]. rewrite (used_index _ _ _ _ H1). cbn [rbind]. rewrite IH. reflexivity.
Qed.
Lemma dot_fold ws xs acc : List.length ws = List.length xs -> fold_left nadd (zipw nmul (map Fin ws) (map Fin xs)) (Fin acc) = Fin (acc + dot ws xs)%Qc.
Proof.
  revert xs acc. induction ws as [|w ws IH]; intros [|x xs] acc H; cbn [List.length] in H; try discriminate; cbn [map zipw fold_left dot].
  - f_equal. ring.
  - cbn [nmul nadd]. rewrite IH by lia. f_equal. ring.
Qed.
Lemma weighted_row_ok ws xs : List.length ws = List.length xs -> weighted_row (map Fin ws) (map Fin xs) = Ok (Fin (dot ws xs)).
Proof.
  intro H. unfold weighted_row. rewrite ew2_ok by (now rewrite !map_length). cbn [rbind]. unfold nint. rewrite ZQ_0, dot_fold by exact H. do 2 f_equal. ring.
Qed.
Lemma dot_bounds ws xs lo hi : List.length ws = List.length xs -> (forall w, In w ws -> 0 <= w)%Qc -> (forall x, In x xs -> lo <= x <= hi)%Qc ->
  (lo * total ws <= dot ws xs <= hi * total ws)%Qc.
Proof.
  revert xs. induction ws as [|w ws IH]; intros [|x xs] L Hw Hx; cbn [List.length] in L; try discriminate; cbn [dot total].
  - split; qclra.
  - destruct (IH xs ltac:(lia) (fun u Hu => Hw u (or_intror Hu)) (fun u Hu => Hx u (or_intror Hu))) as [I1 I2].
    pose proof (Hw w (or_introl eq_refl)) as H0. pose proof (Hx x (or_introl eq_refl)) as [H1 H2].
    assert (w * lo <= w * x)%Qc by (clear -H0 H1; qcnra). assert (w * x <= w * hi)%Qc by (clear -H0 H2; qcnra).
    split; [replace (lo * (w + total ws))%Qc with (w * lo + lo * total ws)%Qc by ring|replace (hi * (w + total ws))%Qc with (w * hi + hi * total ws)%Qc by ring]; qclra.
Qed.
Lemma dot_single xs : forall ws, List.length ws = List.length xs -> forall i, nth_error ws i = Some 1%Qc -> (forall j w, j <> i -> nth_error ws j = Some w -> w = 0%Qc) ->
  forall x, nth_error xs i = Some x -> dot ws xs = x.
Proof.
  assert (Z0 : forall ws xs, (forall w, In w ws -> w = 0%Qc) -> dot ws xs = 0%Qc).
  { induction ws as [|w ws IH]; intros [|x ys] H; cbn [dot]; try reflexivity. rewrite (H w (or_introl eq_refl)), IH by (intros; apply H; now right). ring. }
  induction xs as [|x0 xs IH]; intros [|w ws] L i H1 H0 x Hx; cbn [List.length] in L; try discriminate; [destruct i; discriminate Hx|]. destruct i as [|i]; cbn [nth_error] in *.
  - assert (w = 1%Qc) by congruence. assert (x0 = x) by congruence. subst. cbn [dot]. rewrite Z0; [ring|]. intros u Hu. apply In_nth_error in Hu as [j Hj]. now apply (H0 (S j)).
  - cbn [dot]. assert (Ew : w = 0%Qc) by (apply (H0 0%nat); [discriminate|reflexivity]). rewrite Ew, (IH ws ltac:(lia) i H1 (fun j u Hj Hu => H0 (S j) u ltac:(congruence) Hu) x Hx). ring.
Qed.
Lemma Forall2_length {A B} (R : A -> B -> Prop) l l' : Forall2 R l l' -> List.length l = List.length l'.
Proof. induction 1; cbn [List.length]; congruence. Qed.
