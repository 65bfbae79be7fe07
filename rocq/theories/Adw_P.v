(** * Adw_P: the vectorised removal of the diagonal *)
From Verif Require Import Base Num Xr Scipy Adw Num_P.
Local Open Scope nat_scope.

(** ** lists as tables *)
Lemma seq_mul a b : seq 0 (a * b) = List.concat (map (fun i => map (fun t => i * b + t) (seq 0 b)) (seq 0 a)).
Proof.
  induction a as [|a IH]; [reflexivity|]. replace (S a * b) with (a * b + b) by lia. rewrite seq_app, IH, seq_S, map_app, concat_app. f_equal. cbn [map List.concat app Nat.add]. rewrite app_nil_r.
  generalize (a * b). intro x. clear IH. revert x. induction b as [|b IHb]; intro x; [reflexivity|]. cbn [seq map]. f_equal; [lia|]. rewrite IHb, <- seq_shift, map_map. apply map_ext. intro; lia.
Qed.
Lemma concat_map_map {A B} (f : A -> B) (ls : list (list A)) : map f (List.concat ls) = List.concat (map (map f) ls).
Proof. apply concat_map. Qed.
Lemma chunk_concat w rows : Forall (fun r => List.length r = w) rows -> forall n, n = List.length rows -> chunk w n (List.concat rows) = rows.
Proof.
  induction 1 as [|r rows Hr _ IH]; intros n ->; [reflexivity|]. cbn [List.length chunk List.concat]. rewrite firstn_app, Hr, Nat.sub_diag, firstn_O, app_nil_r, firstn_all2 by lia.
  rewrite skipn_app, Hr, Nat.sub_diag, skipn_O, skipn_all2 by lia. cbn [app]. rewrite IH by reflexivity. reflexivity.
Qed.
Lemma chunk_table w n f : chunk w n (map f (seq 0 (n * w))) = map (fun c => map (fun i => f (c * w + i)) (seq 0 w)) (seq 0 n).
Proof.
  rewrite seq_mul, concat_map_map, map_map. rewrite chunk_concat.
  - apply map_ext. intro c. now rewrite map_map.
  - apply Forall_forall. intros r Hr. apply in_map_iff in Hr. destruct Hr as [c [<- _]]. now rewrite !map_length, seq_length.
  - now rewrite map_length, seq_length.
Qed.
Lemma nth_concat {A} w (rows : list (list A)) d : Forall (fun r => List.length r = w) rows -> forall i j, i < List.length rows -> j < w -> nth (i * w + j) (List.concat rows) d = nth j (nth i rows []) d.
Proof.
  induction 1 as [|r rows Hr _ IH]; intros i j Hi Hj; [cbn in Hi; lia|]. cbn [List.concat]. destruct i as [|i].
  - cbn [Nat.mul Nat.add nth]. rewrite app_nth1 by lia. reflexivity.
  - rewrite app_nth2 by nia. replace (S i * w + j - List.length r) with (i * w + j) by nia. cbn [nth]. apply IH; [cbn in Hi; lia|exact Hj].
Qed.
Lemma without_nth (l : list xr) i : i < List.length l -> without i l = map (fun t => nth (t + (if i <=? t then 1 else 0)) l XNaN) (seq 0 (List.length l - 1)).
Proof.
  unfold without. revert i. induction l as [|a l IH]; intros i Hi; [cbn in Hi; lia|]. cbn [List.length]. rewrite Nat.sub_1_r. cbn [Nat.pred]. destruct i as [|i].
  - cbn [firstn skipn app]. clear IH Hi. transitivity (map (fun t => nth t l XNaN) (seq 0 (List.length l))).
    + symmetry. clear a. induction l as [|b l IH]; [reflexivity|]. cbn [List.length seq map nth]. f_equal. rewrite <- seq_shift, map_map. exact IH.
    + apply map_ext. intro t. change (0 <=? t) with true. cbn iota. replace (t + 1) with (S t) by lia. reflexivity.
  - cbn [firstn app]. change (skipn (S (S i)) (a :: l)) with (skipn (S i) l). rewrite IH by (cbn in Hi; lia). destruct l as [|b l]; [cbn in Hi; lia|]. cbn [List.length]. rewrite Nat.sub_1_r. cbn [Nat.pred seq map]. f_equal.
    rewrite <- seq_shift, map_map. apply map_ext. intro t. change (S i <=? S t) with (i <=? t). destruct (i <=? t); [replace (S t + 1) with (S (t + 1)) by lia|replace (S t + 0) with (S (t + 0)) by lia]; reflexivity.
Qed.

(** ** the strided view *)
Lemma strided_pos c i t m : i < m -> t < m - 1 ->
  let q := (c * m + i) * (m - 1) + t in
  1 + q / ((m - 1) * m) * (m * m) + (q mod ((m - 1) * m)) / m * (m + 1) + (q mod ((m - 1) * m)) mod m = c * (m * m) + i * m + (t + (if i <=? t then 1 else 0)).
Proof.
  intros Hi Ht q. assert (Hq : q = (i * (m - 1) + t) + c * ((m - 1) * m)) by (unfold q; nia).
  assert (Hs : i * (m - 1) + t < (m - 1) * m) by nia.
  assert (E1 : q / ((m - 1) * m) = c) by (rewrite Hq, Nat.div_add, Nat.div_small by lia; lia).
  assert (E2 : q mod ((m - 1) * m) = i * (m - 1) + t) by (rewrite Hq, Nat.mod_add, Nat.mod_small by lia; lia).
  rewrite E1, E2. pose proof (Nat.div_mod (i * (m - 1) + t) m ltac:(lia)) as D. pose proof (Nat.mod_upper_bound (i * (m - 1) + t) m ltac:(lia)) as B.
  set (a := (i * (m - 1) + t) / m) in *. set (b := (i * (m - 1) + t) mod m) in *. destruct (Nat.leb_spec i t) as [H|H].
  - assert (a = i) by (unfold a; symmetry; apply (Nat.div_unique _ m i (t - i)); nia). nia.
  - assert (a = i - 1) by (unfold a; symmetry; apply (Nat.div_unique _ m (i - 1) (m - i + t)); nia). nia.
Qed.
Lemma strided_rows (blocks : list (list (list xr))) n m : n = List.length blocks ->
  Forall (fun b => List.length b = m /\ Forall (fun r => List.length r = m) b) blocks ->
  chunk (m - 1) (n * m) (strided (List.concat (map (@List.concat xr) blocks)) n m) =
  map (fun ci => without (ci mod m) (nth (ci mod m) (nth (ci / m) blocks []) [])) (seq 0 (n * m)).
Proof.
  intros Hn Hb. unfold strided. replace (n * (m * (m - 1))) with (n * m * (m - 1)) by lia. rewrite chunk_table. apply map_ext_in. intros ci Hci. apply in_seq in Hci.
  assert (Hm : 0 < m) by (destruct m; lia). set (c := ci / m). set (i := ci mod m).
  assert (Ec : ci = c * m + i) by (unfold c, i; rewrite (Nat.div_mod ci m) at 1 by lia; lia).
  assert (Hi : i < m) by (apply Nat.mod_upper_bound; lia). assert (Hc : c < n) by (apply Nat.div_lt_upper_bound; lia).
  assert (Hbl : In (nth c blocks []) blocks) by (apply nth_In; lia). destruct (proj1 (Forall_forall _ _) Hb _ Hbl) as [Lb Rb].
  assert (Lr : List.length (nth i (nth c blocks []) []) = m) by (apply (proj1 (Forall_forall _ _) Rb); apply nth_In; lia).
  rewrite without_nth, Lr by lia. apply map_ext_in. intros t Ht. apply in_seq in Ht. cbv zeta. rewrite Ec, strided_pos by lia.
  set (j := t + (if i <=? t then 1 else 0)). assert (Hj : j < m) by (unfold j; destruct (Nat.leb_spec i t); lia).
  rewrite <- Nat.add_assoc. rewrite (nth_concat (m * m)).
  - rewrite (nth_indep _ [] (List.concat [])) by (rewrite map_length; lia). rewrite map_nth. rewrite (nth_concat m); [reflexivity|exact Rb|lia|exact Hj].
  - apply Forall_forall. intros x Hx. apply in_map_iff in Hx. destruct Hx as [b [<- Hx]]. destruct (proj1 (Forall_forall _ _) Hb _ Hx) as [L F]. rewrite <- L at 1. clear - F. induction F as [|r b Hr F IH]; [reflexivity|]. cbn [List.concat List.length]. rewrite app_length, IH, Hr. lia.
  - rewrite map_length. lia.
  - nia.
Qed.
Lemma zipw_map_same {A B C D} (f : B -> C -> D) (g : A -> B) (h : A -> C) l : zipw f (map g l) (map h l) = map (fun x => f (g x) (h x)) l.
Proof. induction l as [|x l IH]; [reflexivity|]. cbn [map zipw]. now rewrite IH. Qed.
Lemma map_nth_seq {A B} (f : A -> B) (l : list A) d : map f l = map (fun c => f (nth c l d)) (seq 0 (List.length l)).
Proof. induction l as [|a l IH]; [reflexivity|]. cbn [List.length seq map nth]. f_equal. rewrite <- seq_shift, map_map. exact IH. Qed.

Lemma nth_map_in {A B} (f : A -> B) (l : list A) i d d' : i < List.length l -> nth i (map f l) d' = f (nth i l d).
Proof. intro H. rewrite (nth_indep _ d' (f d)) by now rewrite map_length. apply map_nth. Qed.

Theorem broadcast_loop rows m : Forall (fun r => List.length (fst r) = m /\ List.length (snd r) = m) rows -> dir_broadcast rows m = map (fun r => dir_loop (fst r) (snd r)) rows.
Proof.
  intro H. unfold dir_broadcast, cos_flat, sj_flat. set (n := List.length rows).
  rewrite <- (map_map (fun r : list diff * list xr => map (fun a => map (cos_theta a) (fst r)) (fst r)) (@List.concat xr)).
  rewrite <- (map_map (fun r : list diff * list xr => map (fun _ => snd r) (fst r)) (@List.concat xr)).
  rewrite !strided_rows; try (unfold n; now rewrite map_length).
  - rewrite zipw_map_same, chunk_table. rewrite (map_nth_seq (fun r : list diff * list xr => dir_loop (fst r) (snd r)) rows ([], [])). fold n. apply map_ext_in. intros c Hc. apply in_seq in Hc.
    assert (Hin : In (nth c rows ([], [])) rows) by (apply nth_In; unfold n in Hc; lia). destruct (proj1 (Forall_forall _ _) H _ Hin) as [L1 L2].
    unfold dir_loop. rewrite L1. apply map_ext_in. intros i Hi. apply in_seq in Hi.
    assert (Ed : (c * m + i) / m = c) by (rewrite (Nat.add_comm), Nat.div_add, Nat.div_small by lia; lia).
    assert (Em : (c * m + i) mod m = i) by (rewrite (Nat.add_comm), Nat.mod_add, Nat.mod_small by lia; lia).
    rewrite Ed, Em. unfold dir_loop_at. f_equal; f_equal.
    + rewrite (nth_map_in _ rows c ([], [])) by (fold n; lia). rewrite (nth_map_in (fun a => map (cos_theta a) (fst (nth c rows ([], [])))) (fst (nth c rows ([], []))) i (0%R, 0%R)) by (rewrite L1; lia). reflexivity.
    + rewrite (nth_map_in _ rows c ([], [])) by (fold n; lia). rewrite (nth_map_in (fun _ => snd (nth c rows ([], []))) (fst (nth c rows ([], []))) i (0%R, 0%R)) by (rewrite L1; lia). reflexivity.
  - apply Forall_forall. intros b Hb. apply in_map_iff in Hb. destruct Hb as [r [<- Hr]]. destruct (proj1 (Forall_forall _ _) H _ Hr) as [L1 L2]. rewrite map_length. split; [exact L1|]. apply Forall_forall. intros x Hx. apply in_map_iff in Hx. destruct Hx as [a [<- _]]. exact L2.
  - apply Forall_forall. intros b Hb. apply in_map_iff in Hb. destruct Hb as [r [<- Hr]]. destruct (proj1 (Forall_forall _ _) H _ Hr) as [L1 L2]. rewrite map_length. split; [exact L1|]. apply Forall_forall. intros x Hx. apply in_map_iff in Hx. destruct Hx as [a [<- _]]. rewrite map_length. exact L1.
Qed.
