(** * Facts about the Python vocabulary of Base.v *)
From Verif Require Import Base.
From Coq Require Import ZifyBool ZifyNat Sorting.Permutation Sorting.Sorted.
Ltac Zify.zify_post_hook ::= Z.div_mod_to_equations.
Local Open Scope Z_scope.

Lemma rbind_ok {A B} (x : res A) (f : A -> res B) b :
  rbind x f = Ok b -> exists a, x = Ok a /\ f a = Ok b.
Proof. destruct x as [a|e]; simpl; intro H; [eauto | discriminate]. Qed.

(** ** range *)
Lemma in_py_range_pos a b s l t :
  0 < s -> py_range a b s = Ok l ->
  (In t l <-> exists i, 0 <= i /\ t = a + i * s /\ t < b).
Proof.
  intros Hs H. unfold py_range in H.
  destruct (Z.eqb_spec s 0); [lia|].
  destruct (Z.ltb_spec 0 s); [|lia].
  injection H as <-. rewrite in_map_iff. split.
  - intros [i [<- Hi]]. apply in_seq in Hi. exists (Z.of_nat i).
    split; [lia|]. split; [reflexivity|].
    unfold range_len in Hi.
    assert (Z.of_nat i < (b - a + s - 1) / s) by lia.
    nia.
  - intros [i [Hi [-> Hb]]]. exists (Z.to_nat i). split; [f_equal; f_equal; lia|].
    apply in_seq. split; [lia|]. unfold range_len. simpl.
    assert (Hq : i + 1 <= (b - a + s - 1) / s) by (apply Z.div_le_lower_bound; nia). lia.
Qed.

Lemma py_range_pos_ok a b s : 0 < s ->
  py_range a b s = Ok (map (fun i => a + Z.of_nat i * s) (seq 0 (range_len a b s))).
Proof.
  intro Hs. unfold py_range.
  destruct (Z.eqb_spec s 0); [lia|]. destruct (Z.ltb_spec 0 s); [reflexivity|lia].
Qed.

Lemma range_len_empty a b s : 0 < s -> b <= a -> range_len a b s = O.
Proof.
  intros Hs Hb. unfold range_len.
  destruct (Z_le_gt_dec ((b - a + s - 1) / s) 0); [lia|].
  exfalso. nia.
Qed.

Lemma range_len_succ a b s : 0 < s -> a < b ->
  range_len a b s = S (range_len (a + s) b s).
Proof.
  intros Hs Hb. unfold range_len.
  replace (b - a + s - 1) with ((b - (a + s) + s - 1) + 1 * s) by lia.
  rewrite Z.div_add by lia.
  assert (0 <= (b - (a + s) + s - 1) / s) by (apply Z.div_pos; lia).
  lia.
Qed.

(** unfolding of the range, one element at a time *)
Lemma py_range_cons a b s : 0 < s -> a < b ->
  exists l, py_range (a + s) b s = Ok l /\ py_range a b s = Ok (a :: l).
Proof.
  intros Hs Hb. rewrite !py_range_pos_ok by assumption. eexists. split; [reflexivity|].
  rewrite (range_len_succ a b s Hs Hb). cbn [seq map]. f_equal. f_equal; [lia|].
  rewrite <- seq_shift, map_map. apply map_ext. intro i. lia.
Qed.

Lemma py_range_nil a b s : 0 < s -> b <= a -> py_range a b s = Ok [].
Proof. intros Hs Hb. rewrite py_range_pos_ok, range_len_empty by assumption. reflexivity. Qed.

Lemma NoDup_py_range a b s l : 0 < s -> py_range a b s = Ok l -> NoDup l.
Proof.
  intros Hs. rewrite py_range_pos_ok by assumption. intro H; injection H as <-.
  apply FinFun.Injective_map_NoDup; [|apply seq_NoDup].
  intros i j Hij. nia.
Qed.

(** ** foldM *)
Lemma foldM_app {S X} (f : S -> X -> res S) l1 l2 s :
  foldM f (l1 ++ l2) s = (do s' <- foldM f l1 s; foldM f l2 s').
Proof.
  revert s. induction l1 as [|x l1 IH]; intro s; [reflexivity|].
  cbn [app foldM]. destruct (f s x) as [s'|e]; [apply IH | reflexivity].
Qed.

Lemma foldM_inv {S X} (f : S -> X -> res S) (P : S -> Prop) l s s' :
  (forall s x s', In x l -> P s -> f s x = Ok s' -> P s') ->
  P s -> foldM f l s = Ok s' -> P s'.
Proof.
  revert s. induction l as [|x l IH]; intros s Hf Hs H; cbn [foldM] in H.
  - injection H as <-. exact Hs.
  - apply rbind_ok in H as [s1 [H1 H2]].
    apply (IH s1); [|eapply Hf; [left; reflexivity| exact Hs | exact H1]|exact H2].
    intros; eapply Hf; [right|..]; eassumption.
Qed.

Lemma foldM_ok {S X} (f : S -> X -> res S) (P : S -> Prop) l s :
  (forall s x, In x l -> P s -> exists s', f s x = Ok s' /\ P s') ->
  P s -> exists s', foldM f l s = Ok s' /\ P s'.
Proof.
  revert s. induction l as [|x l IH]; intros s Hf Hs; cbn [foldM].
  - eauto.
  - destruct (Hf s x (or_introl eq_refl) Hs) as [s1 [-> H1]]. cbn [rbind].
    apply IH; [|exact H1]. intros; apply Hf; [right; assumption|assumption].
Qed.

(** ** mapM *)
Lemma mapM_ok_length {X Y} (f : X -> res Y) l ys : mapM f l = Ok ys -> List.length ys = List.length l.
Proof.
  revert ys. induction l as [|x l IH]; cbn [mapM]; intros ys H.
  - injection H as <-. reflexivity.
  - apply rbind_ok in H as [y [_ H]]. apply rbind_ok in H as [zs [H1 H2]].
    injection H2 as <-. simpl. f_equal. apply IH. exact H1.
Qed.

Lemma mapM_total {X Y} (f : X -> Y) (g : X -> res Y) l :
  (forall x, In x l -> g x = Ok (f x)) -> mapM g l = Ok (map f l).
Proof.
  induction l as [|x l IH]; intro H; cbn [mapM map]; [reflexivity|].
  rewrite H by (left; reflexivity). cbn [rbind]. rewrite IH; [reflexivity|].
  intros; apply H; right; assumption.
Qed.

Lemma mapM_Forall2 {X Y} (f : X -> res Y) l ys :
  mapM f l = Ok ys -> Forall2 (fun x y => f x = Ok y) l ys.
Proof.
  revert ys. induction l as [|x l IH]; cbn [mapM]; intros ys H.
  - injection H as <-. constructor.
  - apply rbind_ok in H as [y [Hy H]]. apply rbind_ok in H as [zs [H1 H2]].
    injection H2 as <-. constructor; auto.
Qed.

(** ** indexing *)
Lemma py_index_nat {A} (l : list A) i :
  py_index l (Z.of_nat i) = match nth_error l i with Some a => Ok a | None => Raise IndexError end.
Proof.
  unfold py_index. destruct (Z.ltb_spec (Z.of_nat i) 0); [lia|].
  destruct (Z.ltb_spec (Z.of_nat i) 0); [lia|]. rewrite Nat2Z.id. reflexivity.
Qed.

(** ** membership *)
Lemma zmem_In x l : zmem x l = true <-> In x l.
Proof.
  unfold zmem. rewrite existsb_exists. split.
  - intros [y [Hy H]]. apply Z.eqb_eq in H. subst. exact Hy.
  - intro H. exists x. split; [exact H | apply Z.eqb_refl].
Qed.
Lemma zmem_nIn x l : zmem x l = false <-> ~ In x l.
Proof. rewrite <- zmem_In. destruct (zmem x l); split; intuition congruence. Qed.

(** ** bisect *)
Definition Zsorted (l : list Z) : Prop := StronglySorted Z.lt l.

Lemma Zsorted_nth l i j : Zsorted l -> (i < j)%nat -> (j < List.length l)%nat -> nth i l 0 < nth j l 0.
Proof.
  intro H. revert i j. induction H as [|x l Hs IH Hx]; intros i j Hij Hj; simpl in Hj; [lia|].
  destruct j as [|j]; [lia|]. destruct i as [|i]; simpl.
  - rewrite Forall_forall in Hx. apply Hx. apply nth_In. lia.
  - apply IH; lia.
Qed.

Lemma div2_bounds lo hi : (lo < hi)%nat -> (lo <= Nat.div2 (lo + hi) /\ Nat.div2 (lo + hi) < hi)%nat.
Proof.
  intro H. pose proof (Nat.div2_odd (lo + hi)) as Ho.
  destruct (Nat.odd (lo + hi)); simpl Nat.b2n in Ho; lia.
Qed.

Lemma bisect_left_loop_spec a x : Zsorted a -> forall fuel lo hi,
  (hi - lo <= fuel)%nat -> (lo <= hi)%nat -> (hi <= List.length a)%nat ->
  (forall i, (i < lo)%nat -> nth i a 0 < x) ->
  (forall i, (hi <= i)%nat -> (i < List.length a)%nat -> x <= nth i a 0) ->
  let r := bisect_left_loop fuel a x lo hi in
  (r <= List.length a)%nat /\ (forall i, (i < r)%nat -> nth i a 0 < x) /\
  (forall i, (r <= i)%nat -> (i < List.length a)%nat -> x <= nth i a 0).
Proof.
  intro Hs. induction fuel as [|f IH]; intros lo hi Hf Hlh Hhi Hlo Hup; cbn [bisect_left_loop].
  - assert (lo = hi) by lia. subst. auto.
  - destruct (Nat.ltb_spec lo hi) as [Hlt|Hge].
    2:{ assert (lo = hi) by lia. subst. auto. }
    pose proof (div2_bounds lo hi Hlt) as [Hm1 Hm2].
    set (mid := Nat.div2 (lo + hi)) in *.
    destruct (Z.ltb_spec (nth mid a 0) x) as [Hlx|Hge].
    + apply IH; try lia; [|assumption].
      intros i Hi. destruct (Nat.eq_dec i mid) as [->|Hne]; [assumption|].
      assert (nth i a 0 < nth mid a 0) by (apply Zsorted_nth; try assumption; lia). lia.
    + apply IH; try lia; [assumption|].
      intros i Hi Hil. destruct (Nat.eq_dec i mid) as [->|Hne]; [assumption|].
      assert (nth mid a 0 < nth i a 0) by (apply Zsorted_nth; try assumption; lia). lia.
Qed.

Lemma bisect_left_spec a x : Zsorted a ->
  (bisect_left a x <= List.length a)%nat /\
  (forall i, (i < bisect_left a x)%nat -> nth i a 0 < x) /\
  (forall i, (bisect_left a x <= i)%nat -> (i < List.length a)%nat -> x <= nth i a 0).
Proof.
  intro Hs. apply (bisect_left_loop_spec a x Hs); try lia.
Qed.

(** without [x] in the list both searches agree, sorted or not *)
Lemma bisect_loops_agree a x : ~ In x a -> forall fuel lo hi,
  (hi <= List.length a)%nat -> bisect_left_loop fuel a x lo hi = bisect_right_loop fuel a x lo hi.
Proof.
  intro Hn. induction fuel as [|f IH]; intros lo hi Hhi; cbn [bisect_left_loop bisect_right_loop]; [reflexivity|].
  destruct (Nat.ltb_spec lo hi) as [Hlt|Hge]; [|reflexivity].
  pose proof (div2_bounds lo hi Hlt) as [Hm1 Hm2].
  set (mid := Nat.div2 (lo + hi)) in *.
  assert (nth mid a 0 <> x) by (intro E; apply Hn; rewrite <- E; apply nth_In; lia).
  destruct (Z.ltb_spec (nth mid a 0) x); destruct (Z.ltb_spec x (nth mid a 0)); try lia;
    apply IH; lia.
Qed.
Lemma bisect_agree a x : ~ In x a -> bisect_left a x = bisect_right a x.
Proof. intro H. apply bisect_loops_agree; [exact H | lia]. Qed.

Lemma bisect_right_loop_spec a x : Zsorted a -> forall fuel lo hi,
  (hi - lo <= fuel)%nat -> (lo <= hi)%nat -> (hi <= List.length a)%nat ->
  (forall i, (i < lo)%nat -> nth i a 0 <= x) ->
  (forall i, (hi <= i)%nat -> (i < List.length a)%nat -> x < nth i a 0) ->
  let r := bisect_right_loop fuel a x lo hi in
  (r <= List.length a)%nat /\ (forall i, (i < r)%nat -> nth i a 0 <= x) /\
  (forall i, (r <= i)%nat -> (i < List.length a)%nat -> x < nth i a 0).
Proof.
  intro Hs. induction fuel as [|f IH]; intros lo hi Hf Hlh Hhi Hlo Hup; cbn [bisect_right_loop].
  - assert (lo = hi) by lia. subst. auto.
  - destruct (Nat.ltb_spec lo hi) as [Hlt|Hge].
    2:{ assert (lo = hi) by lia. subst. auto. }
    pose proof (div2_bounds lo hi Hlt) as [Hm1 Hm2].
    set (mid := Nat.div2 (lo + hi)) in *.
    destruct (Z.ltb_spec x (nth mid a 0)) as [Hlx|Hge].
    + apply IH; try lia; [assumption|].
      intros i Hi Hil. destruct (Nat.eq_dec i mid) as [->|Hne]; [assumption|].
      assert (nth mid a 0 < nth i a 0) by (apply Zsorted_nth; try assumption; lia). lia.
    + apply IH; try lia; [|assumption].
      intros i Hi. destruct (Nat.eq_dec i mid) as [->|Hne]; [assumption|].
      assert (nth i a 0 < nth mid a 0) by (apply Zsorted_nth; try assumption; lia). lia.
Qed.
Lemma bisect_right_spec a x : Zsorted a ->
  (bisect_right a x <= List.length a)%nat /\
  (forall i, (i < bisect_right a x)%nat -> nth i a 0 <= x) /\
  (forall i, (bisect_right a x <= i)%nat -> (i < List.length a)%nat -> x < nth i a 0).
Proof. intro Hs. apply (bisect_right_loop_spec a x Hs); try lia. Qed.

Lemma bisect_left_loop_le a x : forall fuel lo hi, (lo <= hi)%nat -> (bisect_left_loop fuel a x lo hi <= hi)%nat.
Proof.
  induction fuel as [|f IH]; intros lo hi H; cbn [bisect_left_loop]; [exact H|].
  destruct (Nat.ltb_spec lo hi) as [Hlt|Hge]; [|exact H].
  pose proof (div2_bounds lo hi Hlt) as [Hm1 Hm2].
  destruct (nth _ a 0 <? x).
  - apply IH. lia.
  - etransitivity; [apply IH; lia | lia].
Qed.
Lemma bisect_left_le a x : (bisect_left a x <= List.length a)%nat.
Proof. apply bisect_left_loop_le. lia. Qed.

(** the element found is the smallest one >= x *)
Lemma bisect_left_next a x y : Zsorted a -> nth_error a (bisect_left a x) = Some y ->
  In y a /\ x <= y /\ (forall z, In z a -> x <= z -> y <= z).
Proof.
  intros Hs H. pose proof (bisect_left_spec a x Hs) as [Hl [Hlo Hup]].
  assert (Hlt : (bisect_left a x < List.length a)%nat) by (apply nth_error_Some; congruence).
  apply nth_error_nth with (d := 0) in H as Hy.
  split; [rewrite <- Hy; apply nth_In; exact Hlt|].
  split; [rewrite <- Hy; apply Hup; [lia|exact Hlt]|].
  intros z Hz Hxz. apply In_nth with (d := 0) in Hz as [i [Hi Hiz]].
  destruct (Nat.lt_ge_cases i (bisect_left a x)) as [Hlt'|Hge].
  - specialize (Hlo i Hlt'). lia.
  - rewrite <- Hy. destruct (Nat.eq_dec i (bisect_left a x)) as [<-|Hne]; [lia|].
    assert (nth (bisect_left a x) a 0 < nth i a 0) by (apply Zsorted_nth; try assumption; lia). lia.
Qed.

Lemma bisect_left_exists a x : Zsorted a -> (exists z, In z a /\ x <= z) ->
  exists y, nth_error a (bisect_left a x) = Some y.
Proof.
  intros Hs [z [Hz Hxz]]. pose proof (bisect_left_spec a x Hs) as [Hl [Hlo Hup]].
  apply In_nth with (d := 0) in Hz as [i [Hi Hiz]].
  destruct (nth_error a (bisect_left a x)) as [y|] eqn:E; [eauto|].
  apply nth_error_None in E. exfalso. assert (nth i a 0 < x) by (apply Hlo; lia). lia.
Qed.

Lemma bisect_right_next a x y : Zsorted a -> nth_error a (bisect_right a x) = Some y ->
  In y a /\ x < y /\ (forall z, In z a -> x < z -> y <= z).
Proof.
  intros Hs H. pose proof (bisect_right_spec a x Hs) as [Hl [Hlo Hup]].
  assert (Hlt : (bisect_right a x < List.length a)%nat) by (apply nth_error_Some; congruence).
  apply nth_error_nth with (d := 0) in H as Hy.
  split; [rewrite <- Hy; apply nth_In; exact Hlt|].
  split; [rewrite <- Hy; apply Hup; [lia|exact Hlt]|].
  intros z Hz Hxz. apply In_nth with (d := 0) in Hz as [i [Hi Hiz]].
  destruct (Nat.lt_ge_cases i (bisect_right a x)) as [Hlt'|Hge].
  - specialize (Hlo i Hlt'). lia.
  - rewrite <- Hy. destruct (Nat.eq_dec i (bisect_right a x)) as [<-|Hne]; [lia|].
    assert (nth (bisect_right a x) a 0 < nth i a 0) by (apply Zsorted_nth; try assumption; lia). lia.
Qed.
Lemma bisect_right_exists a x : Zsorted a -> (exists z, In z a /\ x < z) ->
  exists y, nth_error a (bisect_right a x) = Some y.
Proof.
  intros Hs [z [Hz Hxz]]. pose proof (bisect_right_spec a x Hs) as [Hl [Hlo Hup]].
  apply In_nth with (d := 0) in Hz as [i [Hi Hiz]].
  destruct (nth_error a (bisect_right a x)) as [y|] eqn:E; [eauto|].
  apply nth_error_None in E. exfalso. assert (nth i a 0 <= x) by (apply Hlo; lia). lia.
Qed.

(** ** stable sort *)
Section SortFacts.
  Context {A : Type} (key : A -> Z).
  Lemma insert_by_perm x l : Permutation (insert_by key x l) (x :: l).
  Proof.
    induction l as [|y l IH]; cbn [insert_by]; [reflexivity|].
    destruct (key x <=? key y); [reflexivity|].
    rewrite IH. apply perm_swap.
  Qed.
  Lemma sort_by_perm l : Permutation (sort_by key l) l.
  Proof.
    induction l as [|x l IH]; cbn [sort_by]; [reflexivity|].
    rewrite insert_by_perm. constructor. exact IH.
  Qed.
  Lemma insert_by_sorted x l :
    StronglySorted (fun a b => key a <= key b) l -> StronglySorted (fun a b => key a <= key b) (insert_by key x l).
  Proof.
    induction 1 as [|y l Hs IH Hy]; cbn [insert_by].
    - repeat constructor.
    - destruct (Z.leb_spec (key x) (key y)).
      + constructor; [constructor; assumption|]. constructor; [assumption|].
        eapply Forall_impl; [|exact Hy]. intros a Ha. simpl in Ha. lia.
      + constructor; [exact IH|].
        rewrite Forall_forall. intros a Ha.
        apply (Permutation_in _ (insert_by_perm x l)) in Ha. destruct Ha as [<-|Ha]; [lia|].
        rewrite Forall_forall in Hy. apply Hy. exact Ha.
  Qed.
  Lemma sort_by_sorted l : StronglySorted (fun a b => key a <= key b) (sort_by key l).
  Proof. induction l; cbn [sort_by]; [constructor | apply insert_by_sorted; assumption]. Qed.
  Lemma sort_by_strict l : NoDup (map key l) ->
    StronglySorted (fun a b => key a < key b) (sort_by key l).
  Proof.
    intro Hn. pose proof (sort_by_sorted l) as Hs.
    assert (Hn' : NoDup (map key (sort_by key l))).
    { eapply Permutation_NoDup; [|exact Hn]. apply Permutation_map. symmetry. apply sort_by_perm. }
    clear Hn. induction Hs as [|x l' Hs IH Hx]; [constructor|].
    inversion Hn' as [|? ? Hnx Hn'']; subst. constructor; [apply IH; assumption|].
    rewrite Forall_forall in *. intros y Hy. specialize (Hx y Hy).
    assert (key x <> key y) by (intro E; apply Hnx; rewrite E; apply in_map; exact Hy). lia.
  Qed.
End SortFacts.

(** ** dictionaries *)
Section DictFacts.
  Context {K V : Type} (eqb : K -> K -> bool).
  Hypothesis eqb_spec : forall a b, eqb a b = true <-> a = b.

  Lemma eqb_refl' k : eqb k k = true.
  Proof. apply eqb_spec. reflexivity. Qed.
  Lemma eqb_neq k k' : eqb k k' = false <-> k <> k'.
  Proof. rewrite <- eqb_spec. destruct (eqb k k'); split; intuition congruence. Qed.

  Lemma dget_dset (d : list (K * V)) k k' v :
    dget eqb (dset eqb d k v) k' = if eqb k' k then Some v else dget eqb d k'.
  Proof.
    induction d as [|[k0 v0] d IH]; cbn [dset dget].
    - reflexivity.
    - destruct (eqb k k0) eqn:E; cbn [dget].
      + apply eqb_spec in E. subst k0. destruct (eqb k' k); reflexivity.
      + rewrite IH. destruct (eqb k' k0) eqn:E0; [|reflexivity].
        apply eqb_spec in E0. subst k0. destruct (eqb k' k) eqn:E1; [|reflexivity].
        apply eqb_spec in E1. subst. rewrite eqb_refl' in E. discriminate.
  Qed.

  Lemma dget_In (d : list (K * V)) k v : dget eqb d k = Some v -> In (k, v) d.
  Proof.
    induction d as [|[k0 v0] d IH]; cbn [dget]; [discriminate|].
    destruct (eqb k k0) eqn:E.
    - apply eqb_spec in E. subst. intro H; injection H as <-. left; reflexivity.
    - intro H. right. apply IH. exact H.
  Qed.
  Lemma dget_None (d : list (K * V)) k : dget eqb d k = None <-> ~ In k (dkeys d).
  Proof.
    induction d as [|[k0 v0] d IH]; cbn [dget dkeys map fst].
    - split; auto.
    - destruct (eqb k k0) eqn:E.
      + apply eqb_spec in E. subst. split; [discriminate|]. intro H; exfalso; apply H; left; reflexivity.
      + apply eqb_neq in E. rewrite IH. unfold dkeys. simpl. intuition congruence.
  Qed.
  Lemma In_dget (d : list (K * V)) k v : NoDup (dkeys d) -> In (k, v) d -> dget eqb d k = Some v.
  Proof.
    induction d as [|[k0 v0] d IH]; cbn [dkeys map fst dget]; intros Hn Hi; [destruct Hi|].
    inversion Hn as [|? ? Hn0 Hn']; subst. destruct Hi as [E|Hi].
    - injection E as <- <-. rewrite eqb_refl'. reflexivity.
    - destruct (eqb k k0) eqn:E; [|apply IH; assumption].
      apply eqb_spec in E. subst. exfalso. apply Hn0. apply in_map_iff. exists (k0, v). auto.
  Qed.
  Lemma dmem_In (d : list (K * V)) k : dmem eqb d k = true <-> In k (dkeys d).
  Proof.
    unfold dmem. destruct (dget eqb d k) eqn:E.
    - split; [|reflexivity]. intros _. apply dget_In in E. apply in_map_iff. exists (k, v). auto.
    - apply dget_None in E. split; [discriminate | contradiction].
  Qed.

  Lemma dkeys_dset (d : list (K * V)) k v :
    dkeys (dset eqb d k v) = if dmem eqb d k then dkeys d else dkeys d ++ [k].
  Proof.
    unfold dmem. induction d as [|[k0 v0] d IH]; cbn [dset dget]; [reflexivity|].
    destruct (eqb k k0) eqn:E; [reflexivity|].
    unfold dkeys in *. cbn [map fst]. rewrite IH. destruct (dget eqb d k); reflexivity.
  Qed.
  Lemma dset_new (d : list (K * V)) k v : ~ In k (dkeys d) -> dset eqb d k v = d ++ [(k, v)].
  Proof.
    induction d as [|[k0 v0] d IH]; cbn [dset dkeys map fst app]; intro Hn; [reflexivity|].
    destruct (eqb k k0) eqn:E.
    - apply eqb_spec in E. subst. exfalso. apply Hn. left. reflexivity.
    - rewrite IH; [reflexivity|]. intro H. apply Hn. right. exact H.
  Qed.
  Lemma NoDup_dset (d : list (K * V)) k v : NoDup (dkeys d) -> NoDup (dkeys (dset eqb d k v)).
  Proof.
    intro Hn. rewrite dkeys_dset. destruct (dmem eqb d k) eqn:E; [exact Hn|].
    assert (~ In k (dkeys d)) by (rewrite <- dmem_In; congruence).
    apply Permutation_NoDup with (l := k :: dkeys d).
    - apply Permutation_cons_append.
    - constructor; assumption.
  Qed.
  Lemma NoDup_dupdate (e d : list (K * V)) : NoDup (dkeys d) -> NoDup (dkeys (dupdate eqb d e)).
  Proof.
    unfold dupdate. revert d. induction e as [|[k v] e IH]; intros d H; cbn [fold_left]; [exact H|].
    apply IH. apply NoDup_dset. exact H.
  Qed.
  Lemma NoDup_dict_of (ps : list (K * V)) : NoDup (dkeys (dict_of eqb ps)).
  Proof. apply NoDup_dupdate. constructor. Qed.

  (** last binding of [k] in a list of pairs *)
  Fixpoint last_binding (ps : list (K * V)) (k : K) : option V :=
    match ps with
    | [] => None
    | (k', v) :: ps' =>
        match last_binding ps' k with
        | Some w => Some w
        | None => if eqb k k' then Some v else None
        end
    end.
  Lemma dget_dupdate (e d : list (K * V)) k :
    dget eqb (dupdate eqb d e) k =
      match last_binding e k with Some v => Some v | None => dget eqb d k end.
  Proof.
    unfold dupdate. revert d. induction e as [|[k0 v0] e IH]; intro d; cbn [fold_left last_binding]; [reflexivity|].
    rewrite IH. destruct (last_binding e k); [reflexivity|]. cbn [fst snd]. rewrite dget_dset.
    destruct (eqb k k0); reflexivity.
  Qed.
  Lemma dict_of_NoDup_aux (ps d : list (K * V)) :
    NoDup (dkeys d ++ dkeys ps) -> dupdate eqb d ps = d ++ ps.
  Proof.
    unfold dupdate. revert d. induction ps as [|[k v] ps IH]; intros d H; cbn [fold_left].
    - rewrite app_nil_r. reflexivity.
    - cbn [fst snd]. unfold dkeys in H. cbn [map fst] in H.
      assert (Hk : ~ In k (dkeys d)).
      { apply NoDup_remove_2 in H. intro Hi. apply H. apply in_or_app. left. exact Hi. }
      rewrite dset_new by exact Hk. rewrite IH.
      + rewrite <- app_assoc. reflexivity.
      + unfold dkeys. rewrite map_app. cbn [map fst]. rewrite <- app_assoc. exact H.
  Qed.
  (** a list with distinct keys is already a dict *)
  Lemma dict_of_NoDup (ps : list (K * V)) : NoDup (dkeys ps) -> dict_of eqb ps = ps.
  Proof. intro H. unfold dict_of. rewrite dict_of_NoDup_aux; [reflexivity | exact H]. Qed.

  Lemma dget_ddel (d : list (K * V)) k k' : NoDup (dkeys d) ->
    dget eqb (ddel eqb d k) k' = if eqb k' k then None else dget eqb d k'.
  Proof.
    induction d as [|[k0 v0] d IH]; cbn [ddel dget]; intro Hn.
    - destruct (eqb k' k); reflexivity.
    - inversion Hn as [|? ? Hn0 Hn']; subst. destruct (eqb k k0) eqn:E.
      + apply eqb_spec in E. subst k0. destruct (eqb k' k) eqn:E1; [|reflexivity].
        apply eqb_spec in E1. subst. apply dget_None. exact Hn0.
      + cbn [dget]. rewrite IH by exact Hn'. destruct (eqb k' k0) eqn:E0; [|reflexivity].
        apply eqb_spec in E0. subst k0. destruct (eqb k' k) eqn:E1; [|reflexivity].
        apply eqb_spec in E1. subst. rewrite eqb_refl' in E. discriminate.
  Qed.
End DictFacts.

Lemma Zeqb_spec' : forall a b, Z.eqb a b = true <-> a = b.
Proof. intros. apply Z.eqb_eq. Qed.

(** relational view of results *)
Definition rel_res {A B} (R : A -> B -> Prop) (x : res A) (y : res B) : Prop :=
  match x, y with
  | Ok a, Ok b => R a b
  | Raise e, Raise e' => e = e'
  | _, _ => False
  end.
Lemma rel_bind {A A' B B'} (R : A -> A' -> Prop) (Q : B -> B' -> Prop) x x' f f' :
  rel_res R x x' -> (forall a a', R a a' -> rel_res Q (f a) (f' a')) ->
  rel_res Q (rbind x f) (rbind x' f').
Proof. destruct x, x'; simpl; intros H Hf; try contradiction; auto. Qed.
Lemma rel_foldM {S S' X} (R : S -> S' -> Prop) f f' (l : list X) s s' :
  R s s' -> (forall s s' x, R s s' -> rel_res R (f s x) (f' s' x)) ->
  rel_res R (foldM f l s) (foldM f' l s').
Proof.
  intros H Hf. revert s s' H. induction l as [|x l IH]; intros s s' H; cbn [foldM]; [exact H|].
  eapply rel_bind; [apply Hf; exact H | intros; apply IH; assumption].
Qed.
