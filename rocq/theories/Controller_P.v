(** * Controller_P: windows of the aggregation, order of the fields *)
From Verif Require Import Base Num PyStr Strings Config Context Aggregator Converter Reader Controller Spec_Controller Spec_Reader Base_P Reader_P.
From Coq Require Import Permutation Sorted.
Local Open Scope Z_scope.

(** the window of a key, by type of aggregation *)
Definition window_ok (g : aggr) (k : step) : Prop :=
  (a_type g = "accumulation"%string /\ s_start k = s_end k - a_step g /\
     (if a_start g =? 0 then a_step g else a_start g) <= s_end k <= a_end g) \/
  (a_type g = "average"%string /\ s_end k = s_start k + a_step g /\
     fst (avg_bounds g) <= s_start k < snd (avg_bounds g)) \/
  (a_type g = "instantaneous"%string /\ s_start k = s_end k /\ find_start g <= s_end k <= a_end g).

Definition keys_inv (P : step -> Prop) (d : fields) : Prop := NoDup (map fst d) /\ forall k, In k (map fst d) -> P k.
Lemma keys_inv_dset P (d : fields) k v : keys_inv P d -> P k -> keys_inv P (dset step_eqb d k v).
Proof.
  intros [H1 H2] Hk. split; [apply (NoDup_dset step_eqb step_eqb_iff); exact H1|].
  intros k' Hk'. change (In k' (dkeys (dset step_eqb d k v))) in Hk'. rewrite (dkeys_dset step_eqb) in Hk'.
  destruct (dmem step_eqb d k); [now apply H2|]. apply in_app_or in Hk' as [Hk'|[<-|[]]]; [now apply H2|exact Hk].
Qed.
Lemma keys_inv_nil P : keys_inv P []. Proof. split; [constructor|intros ? []]. Qed.

Lemma manip_keys g values out : 0 < a_step g -> do_manipulation g values = Ok out ->
  exists k0 a0 rest, values = (k0, a0) :: rest /\
    keys_inv (fun k => s_res k = s_res k0 /\ s_level k = s_level k0 /\ s_input k = a_step g /\ window_ok g k) out.
Proof.
  intros Hs H. unfold do_manipulation in H.
  destruct (String.eqb_spec (a_type g) "accumulation") as [Ht|_].
  { unfold accumulation in H. apply rbind_ok in H as [st [H Ho]]. unfold accumulation_run in H. destruct values as [|[k0 a0] rest]; [discriminate|]. cbn [first_entry rbind] in H.
    apply rbind_ok in H as [iters [Hi H]]. exists k0, a0, rest. split; [reflexivity|].
    assert (K : keys_inv (fun k => s_res k = s_res k0 /\ s_level k = s_level k0 /\ s_input k = a_step g /\ window_ok g k) (ac_out st)); [|congruence].
    refine (foldM_inv (acc_body g (asize a0) (s_res k0) (s_level k0)) (fun s => keys_inv (fun k => s_res k = s_res k0 /\ s_level k = s_level k0 /\ s_input k = a_step g /\ window_ok g k) (ac_out s)) iters _ st _ _ H); [|apply keys_inv_nil].
    intros s t s' Hin Hinv Hb. unfold acc_body in Hb. apply rbind_ok in Hb as [v1 [_ Hb]]. apply rbind_ok in Hb as [[v2 z2] [_ Hb]].
    apply rbind_ok in Hb as [p [_ Hb]]. apply rbind_ok in Hb as [c [_ Hb]]. apply rbind_ok in Hb as [o [_ Hb]]. injection Hb as <-. cbn [ac_out].
    apply keys_inv_dset; [exact Hinv|]. cbn [s_res s_level s_input s_start s_end]. repeat split. left.
    apply (in_py_range_pos _ _ _ _ t Hs Hi) in Hin as [j [Hj [-> Hl]]]. cbn [s_start s_end]. split; [exact Ht|]. split; [reflexivity|]. nia. }
  destruct (String.eqb_spec (a_type g) "average") as [Ht|_].
  { unfold average in H. destruct (String.eqb (a_step_type g) "accum"); [discriminate|]. destruct values as [|[k0 a0] rest]; [discriminate|]. cbn [first_entry rbind] in H.
    destruct (avg_bounds g) as [b e] eqn:Eb. apply rbind_ok in H as [iters [Hi H]]. exists k0, a0, rest. split; [reflexivity|].
    refine (foldM_inv _ (keys_inv (fun k => s_res k = s_res k0 /\ s_level k = s_level k0 /\ s_input k = a_step g /\ window_ok g k)) iters _ out _ _ H); [|apply keys_inv_nil].
    intros s t s' Hin Hinv Hb. unfold avg_body in Hb. apply rbind_ok in Hb as [[sum cnt] [_ Hb]]. injection Hb as <-.
    apply keys_inv_dset; [exact Hinv|]. cbn [s_res s_level s_input s_start s_end]. repeat split. right. left.
    apply (in_py_range_pos _ _ _ _ t Hs Hi) in Hin as [j [Hj [-> Hl]]]. cbn [s_start s_end]. split; [exact Ht|]. split; [reflexivity|]. rewrite Eb. cbn [fst snd]. nia. }
  destruct (String.eqb_spec (a_type g) "instantaneous") as [Ht|_]; [|discriminate].
  unfold instantaneous in H. destruct (String.eqb (a_step_type g) "accum"); [discriminate|]. destruct values as [|[k0 a0] rest]; [discriminate|]. cbn [first_entry rbind] in H.
  apply rbind_ok in H as [iters [Hi H]]. exists k0, a0, rest. split; [reflexivity|].
  refine (foldM_inv _ (keys_inv (fun k => s_res k = s_res k0 /\ s_level k = s_level k0 /\ s_input k = a_step g /\ window_ok g k)) iters _ out _ _ H); [|apply keys_inv_nil].
  intros s t s' Hin Hinv Hb. unfold inst_body in Hb. apply rbind_ok in Hb as [d [_ Hb]]. injection Hb as <-.
  apply keys_inv_dset; [exact Hinv|]. cbn [s_res s_level s_input s_start s_end]. repeat split. right. right.
  apply (in_py_range_pos _ _ _ _ t Hs Hi) in Hin as [j [Hj [-> Hl]]]. cbn [s_start s_end]. split; [exact Ht|]. split; [reflexivity|]. nia.
Qed.

(** ** order *)
Lemma order_sorted c v : by_end (order_fields c v).
Proof. unfold by_end, order_fields. exact (sort_by_sorted (fun kv : step * arr => s_end (fst kv)) _). Qed.

(** a stable sort of a list whose first part is below the second sorts the parts *)
Lemma insert_by_app_l {A} (key : A -> Z) x l1 l2 : Forall (fun y => key x <= key y) l2 ->
  insert_by key x (l1 ++ l2)%list = (insert_by key x l1 ++ l2)%list.
Proof.
  intro H. induction l1 as [|y l1 IH]; cbn [app insert_by].
  - destruct l2 as [|z l2]; [reflexivity|]. inversion H; subst. cbn [insert_by]. destruct (Z.leb_spec (key x) (key z)); [reflexivity|lia].
  - destruct (key x <=? key y); [reflexivity|]. now rewrite IH.
Qed.
Lemma sort_by_app {A} (key : A -> Z) l1 l2 : Forall (fun x => Forall (fun y => key x <= key y) l2) l1 ->
  sort_by key (l1 ++ l2)%list = (sort_by key l1 ++ sort_by key l2)%list.
Proof.
  intro H. induction H as [|x l1 Hx H IH]; [reflexivity|]. cbn [app sort_by]. rewrite IH. apply insert_by_app_l.
  rewrite Forall_forall in *. intros y Hy. apply Hx. now rewrite <- (sort_by_perm key l2).
Qed.

Lemma dupdate_disjoint (d e : fields) : NoDup (map fst e) -> (forall k, In k (map fst e) -> ~ In k (map fst d)) ->
  dupdate step_eqb d e = (d ++ e)%list.
Proof.
  unfold dupdate. revert d. induction e as [|[k v] e IH]; intros d Hn Hd; [now rewrite app_nil_r|]. cbn [fold_left fst snd map] in *.
  inversion Hn as [|? ? H1 H2]; subst.
  assert (E : dset step_eqb d k v = (d ++ [(k, v)])%list).
  { assert (Hk : ~ In k (map fst d)) by (apply Hd; now left). clear -Hk. induction d as [|[k' v'] d IH]; [reflexivity|]. cbn [dset].
    destruct (step_eqb k k') eqn:E; [apply step_eqb_iff in E; exfalso; apply Hk; left; auto|]. cbn. rewrite IH; [reflexivity|]. intro; apply Hk; now right. }
  rewrite E, IH, <- app_assoc; auto. intros k' Hk' Hi. rewrite map_app in Hi. apply in_app_or in Hi as [Hi|[<-|[]]]; [|contradiction].
  exact (Hd k' (or_intror Hk') Hi).
Qed.

Lemma sort_by_map {A B} (key : A -> Z) (f : B -> A) l : sort_by key (map f l) = map f (sort_by (fun b => key (f b)) l).
Proof.
  assert (Hi : forall x l, insert_by key (f x) (map f l) = map f (insert_by (fun b => key (f b)) x l)).
  { intros x m. induction m as [|y m IH]; [reflexivity|]. cbn [map insert_by]. destruct (key (f x) <=? key (f y)); [reflexivity|]. cbn [map]. now rewrite IH. }
  induction l as [|x l IH]; [reflexivity|]. cbn [map sort_by]. rewrite IH. apply Hi.
Qed.
Lemma cut_off_keys l : map fst (cut_off_fields l) = map fst l.
Proof. unfold cut_off_fields. rewrite map_map. reflexivity. Qed.
Lemma cut_off_app a b : cut_off_fields (a ++ b) = (cut_off_fields a ++ cut_off_fields b)%list.
Proof. unfold cut_off_fields. apply map_app. Qed.
