(** * Controller_P2: the two resolutions (C35, C36), the written maps *)
From Verif Require Import Base Num PyStr Strings Config Context Aggregator Converter Reader Controller Spec_Controller Spec_Reader Base_P Reader_P Controller_P.
From Coq Require Import Permutation Sorted.
Local Open Scope Z_scope.

Lemma new_aggr_inv x input t s e g : new_aggr x input t s e = Ok g ->
  exists u a, jint (x_astep x) = Ok a /\ jint (x_unitTime x) = Ok u /\
    g = aggr_init t input u a (aggr_name (x_atype x)) (jtruthy (x_ahalf x)) (x_aforce x) s e false.
Proof.
  unfold new_aggr. intro H. apply rbind_ok in H as [u [Hu H]]. apply rbind_ok in H as [a [Ha H]]. injection H as <-. eauto.
Qed.

Lemma choose_range_inv x i t s e g : choose_range x i t = Ok (s, e, g) ->
  exists s0 e0, or_int (x_tstart x) 0 = Ok s0 /\ or_int (x_tend x) (i_end i) = Ok e0 /\
  match g with
  | Some g => x_doAggr x = true /\ new_aggr x (i_step i) t s0 e0 = Ok g /\ s = a_usable g /\ e = a_end g /\ e = e0
  | None => x_doAggr x = false /\ s = s0 /\ e = e0
  end.
Proof.
  unfold choose_range. intro H. apply rbind_ok in H as [s0 [Hs H]]. apply rbind_ok in H as [e0 [He H]]. exists s0, e0. split; [exact Hs|]. split; [exact He|].
  destruct (x_doAggr x).
  - apply rbind_ok in H as [g0 [Hg H]]. unfold real_start_end in H. injection H as <- <- <-. repeat split; auto.
    destruct (new_aggr_inv _ _ _ _ _ _ Hg) as [u [a [_ [_ ->]]]]. reflexivity.
  - injection H as <- <- <-. auto.
Qed.

(** the fields of the first resolution *)
Definition first_fields (x : ctx) (g : option aggr) (m : messages) (out : fields) : Prop :=
  match g with
  | None => out = m_first m
  | Some g => do_manipulation (match m_grid2 m with Some (_, k) => change_end_step g (s_start k) | None => g end) (m_first m) = Ok out
  end.

Lemma aggregate_inv x input e g m values change : aggregate x input e g m = Ok (values, change) ->
  exists out1, first_fields x g m out1 /\
  match m_grid2 m with
  | None => values = out1 /\ change = None
  | Some (_, k) => exists a, jint (x_astep x) = Ok a /\
      if (x_doAggr x && (s_end k + a <? e))%bool then
        exists g2 out2 c, new_aggr x input (m_type m) (s_end k + a) e = Ok g2 /\ do_manipulation g2 (m_second m) = Ok out2 /\
          first_by_end out2 = Ok c /\ change = Some c /\ values = dupdate step_eqb out1 out2
      else values = out1 /\ change = Some k
  end.
Proof.
  unfold aggregate. intro H. apply rbind_ok in H as [out1 [H1 H]]. exists out1.
  split. { destruct g; [exact H1|now injection H1 as <-]. }
  destruct (m_grid2 m) as [[gr k]|]; [|injection H as <- <-; auto].
  apply rbind_ok in H as [a [Ha H]]. exists a. split; [exact Ha|].
  destruct (x_doAggr x && (s_end k + a <? e))%bool; [|injection H as <- <-; auto].
  apply rbind_ok in H as [[c v] [H2 H]]. unfold second_res in H2. apply rbind_ok in H2 as [g2 [Hg2 H2]]. apply rbind_ok in H2 as [out2 [Ho2 H2]].
  apply rbind_ok in H2 as [c' [Hc H2]]. injection H2 as <- <-. injection H as <- <-. exists g2, out2, c'. auto.
Qed.

Lemma first_by_end_spec v c : first_by_end v = Ok c -> exists r, sort_by s_end (dkeys v) = c :: r /\ In c (map fst v).
Proof.
  unfold first_by_end. destruct (sort_by s_end (dkeys v)) as [|k r] eqn:E; [discriminate|]. intro H. injection H as <-. exists r. split; [reflexivity|].
  change (In k (dkeys v)). rewrite <- (sort_by_perm s_end (dkeys v)), E. now left.
Qed.

(** the second resolution's windows begin at the change step or later *)
Lemma second_windows x input t e g2 sk a k0 : jint (x_astep x) = Ok a -> 0 < a -> 0 <= sk -> 0 <= input ->
  new_aggr x input t (sk + a) e = Ok g2 -> window_ok g2 k0 -> sk <= s_start k0 /\ a_step g2 = a /\
    (aggr_name (x_atype x) = "instantaneous"%string \/ s_end k0 = s_start k0 + a).
Proof.
  intros Ha Hp Hk Hi Hg Hw. destruct (new_aggr_inv _ _ _ _ _ _ Hg) as [u [a' [Ha' [_ ->]]]]. assert (a' = a) by congruence. subst a'.
  cbn [a_step aggr_init]. unfold window_ok, avg_bounds, find_start in Hw. cbn [a_step a_start a_end a_type a_sec a_step_type a_input_step aggr_init] in Hw.
  destruct Hw as [[E [H1 H2]]|[[E [H1 H2]]|[E [H1 H2]]]].
  - destruct (Z.eqb_spec (sk + a) 0); [lia|]. split; [lia|]. split; [reflexivity|]. right. lia.
  - destruct (Z.eqb_spec (sk + a) 0); [lia|]. cbn [orb fst snd] in H2. split; [lia|]. split; [reflexivity|]. right. lia.
  - split; [|split; [reflexivity|now left]]. destruct (String.eqb t "avg"); [lia|]. destruct (Z.ltb_spec 0 (sk + a - a)); lia.
Qed.

(** the first resolution's windows end at the change step; one step later for
    averages from step 0 *)
Lemma first_windows x input t s0 e0 g1 c a k0 : jint (x_astep x) = Ok a -> 0 < a ->
  new_aggr x input t s0 e0 = Ok g1 -> window_ok (change_end_step g1 c) k0 ->
  s_end k0 <= (if (String.eqb (aggr_name (x_atype x)) "average" && (s0 =? 0))%bool then c + 1 else c) /\
  a_step (change_end_step g1 c) = a /\
    (aggr_name (x_atype x) = "instantaneous"%string /\ s_end k0 = s_start k0 \/ s_end k0 = s_start k0 + a).
Proof.
  intros Ha Hp Hg Hw. destruct (new_aggr_inv _ _ _ _ _ _ Hg) as [u [a' [Ha' [_ ->]]]]. assert (a' = a) by congruence. subst a'.
  cbn [a_step aggr_init change_end_step]. unfold window_ok, avg_bounds, find_start in Hw. cbn [a_step a_start a_end a_type a_sec a_step_type a_input_step aggr_init change_end_step] in Hw.
  destruct Hw as [[E [H1 H2]]|[[E [H1 H2]]|[E [H1 H2]]]]; rewrite E; cbn [String.eqb Ascii.eqb Bool.eqb andb].
  - split; [lia|]. split; [reflexivity|]. right. lia.
  - split; [|split; [reflexivity|right; lia]]. destruct (s0 =? 0); cbn [orb fst snd] in H2; lia.
  - split; [lia|]. split; [reflexivity|]. left. split; [reflexivity|lia].
Qed.

(** keys of one aggregation differ by their windows *)
Lemma windows_NoDup (P : step -> Prop) res lev inp out : (forall k, P k -> s_res k = res /\ s_level k = lev /\ s_input k = inp) ->
  keys_inv P out -> NoDup (map window (map fst out)).
Proof.
  intros HP [Hn Hk]. induction (map fst out) as [|k l IH]; [constructor|]. cbn [map]. inversion Hn as [|? ? H1 H2]; subst. constructor.
  - intro Hi. apply in_map_iff in Hi as [k' [E Hi]]. apply H1. assert (k' = k); [|congruence].
    destruct (HP _ (Hk k (or_introl eq_refl))) as [A [B C]]. destruct (HP _ (Hk k' (or_intror Hi))) as [A' [B' C']].
    unfold window in E. destruct k, k'; cbn in *. congruence.
  - apply IH; auto. intros k' Hk'. apply Hk. now right.
Qed.

(** ** writing *)
Lemma one_map_inv o m change second i kv b w : one_map o m change second i kv = Ok (b, w) ->
  b = (second || at_change m change (fst kv))%bool /\ wn_map w = i /\ wn_step w = fst kv /\ wn_field w = snd kv /\ wn_second w = b /\
  wn_grid w = grid_of m b /\ xt_map o (wn_grid w) (wn_second w) (wn_field w) = Ok (wn_out w).
Proof.
  unfold one_map. intro H. apply rbind_ok in H as [out [Ho H]]. injection H as <- <-. cbn. auto 10.
Qed.

(** which fields are written as second resolution *)
Fixpoint marks (m : messages) (change : option step) (second : bool) (l : fields) : list bool :=
  match l with [] => [] | kv :: r => let b := (second || at_change m change (fst kv))%bool in b :: marks m change b r end.

Definition map_ok (o : ext) (m : messages) (w : written) : Prop :=
  wn_grid w = grid_of m (wn_second w) /\ xt_map o (wn_grid w) (wn_second w) (wn_field w) = Ok (wn_out w).
Definition entry_of (w : written) : Z * step * arr := (wn_map w, wn_step w, wn_field w).

Lemma nc_loop_ok o m change values : forall second i ws, nc_loop o m change second i values = Ok ws ->
  map entry_of ws = numbered i values /\ map wn_second ws = marks m change second values /\ Forall (map_ok o m) ws.
Proof.
  induction values as [|[k v] r IH]; intros second i ws H; cbn [nc_loop] in H; [injection H as <-; cbn; auto|].
  apply rbind_ok in H as [[b w] [H1 H]]. apply rbind_ok in H as [ws' [H2 H]]. injection H as <-.
  apply one_map_inv in H1 as [-> [H11 [H12 [H13 [H14 [H15 H16]]]]]]. cbn [fst snd] in *. destruct (IH _ _ _ H2) as [A [B C]].
  cbn [map numbered marks fst]. split; [|split].
  - rewrite A. unfold entry_of. now rewrite H11, H12, H13.
  - rewrite B, H14. reflexivity.
  - constructor; [|exact C]. unfold map_ok. rewrite H14 at 1. auto.
Qed.
Lemma pcr_loop_ok o m change values : forall second i ws, pcr_loop o m change second i values = (ws, Ok tt) ->
  map entry_of ws = numbered i values /\ map wn_second ws = marks m change second values /\ Forall (map_ok o m) ws.
Proof.
  induction values as [|[k v] r IH]; intros second i ws H; cbn [pcr_loop] in H; [injection H as <-; cbn; auto|].
  destruct (one_map o m change second i (k, v)) as [[b w]|] eqn:H1; [|discriminate]. destruct (xt_put o w); [|discriminate].
  destruct (pcr_loop o m change b (i + 1) r) as [ws' o'] eqn:H2. injection H as <- ->.
  apply one_map_inv in H1 as [-> [H11 [H12 [H13 [H14 [H15 H16]]]]]]. cbn [fst snd] in *. destruct (IH _ _ _ H2) as [A [B C]].
  cbn [map numbered marks fst]. split; [|split].
  - rewrite A. unfold entry_of. now rewrite H11, H12, H13.
  - rewrite B, H14. reflexivity.
  - constructor; [|exact C]. unfold map_ok. rewrite H14 at 1. auto.
Qed.
(** a failure leaves the maps before it *)
Lemma pcr_loop_fail o m change values : forall second i ws e, pcr_loop o m change second i values = (ws, Raise e) ->
  exists l1 l2, values = (l1 ++ l2)%list /\ l2 <> [] /\ map entry_of ws = numbered i l1.
Proof.
  induction values as [|[k v] r IH]; intros second i ws e H; cbn [pcr_loop] in H; [discriminate|].
  destruct (one_map o m change second i (k, v)) as [[b w]|] eqn:H1; [|injection H as <- _; exists [], ((k, v) :: r); repeat split; discriminate].
  destruct (xt_put o w); [|injection H as <- _; exists [], ((k, v) :: r); repeat split; discriminate].
  destruct (pcr_loop o m change b (i + 1) r) as [ws' o'] eqn:H2. injection H as <- ->.
  apply one_map_inv in H1 as [_ [H11 [H12 [H13 _]]]]. cbn [fst snd] in *. destruct (IH _ _ _ _ H2) as [l1 [l2 [-> [A B]]]].
  exists ((k, v) :: l1), l2. split; [reflexivity|]. split; [exact A|]. cbn [map numbered]. rewrite B. unfold entry_of. now rewrite H11, H12, H13.
Qed.

Lemma marks_true m change l : marks m change true l = repeat true (List.length l).
Proof. induction l as [|kv r IH]; [reflexivity|]. cbn [marks orb List.length repeat]. now rewrite IH. Qed.
Lemma marks_none m change l : (forall k, In k (map fst l) -> at_change m change k = false) -> marks m change false l = repeat false (List.length l).
Proof.
  induction l as [|kv r IH]; intro H; [reflexivity|]. cbn [marks orb List.length repeat]. rewrite (H (fst kv)) by now left. rewrite IH; [reflexivity|].
  intros k Hk. apply H. now right.
Qed.
Lemma marks_app m change b l1 l2 : marks m change b (l1 ++ l2)%list = (marks m change b l1 ++ marks m change (b || existsb (fun kv => at_change m change (fst kv)) l1) l2)%list.
Proof.
  revert b. induction l1 as [|kv r IH]; intro b; cbn [app marks existsb]; [now rewrite Bool.orb_false_r|]. rewrite IH, Bool.orb_assoc. reflexivity.
Qed.
Lemma marks_change m gr k0 c l1 v l2 : m_grid2 m = Some (gr, k0) -> ~ In c (map fst l1) ->
  marks m (Some c) false (l1 ++ (c, v) :: l2)%list = (repeat false (List.length l1) ++ repeat true (S (List.length l2)))%list.
Proof.
  intros Hg Hn. rewrite marks_app.
  assert (Hno : forall k, In k (map fst l1) -> at_change m (Some c) k = false).
  { intros k Hk. unfold at_change. destruct (step_eqb k c) eqn:E; [|now rewrite Bool.andb_false_r]. apply step_eqb_iff in E. congruence. }
  rewrite marks_none by exact Hno. f_equal. cbn [marks fst].
  assert (E : existsb (fun kv => at_change m (Some c) (fst kv)) l1 = false).
  { apply Bool.not_true_is_false. intro E. apply existsb_exists in E as [kv [Hk E]]. rewrite Hno in E; [discriminate|]. now apply in_map. }
  rewrite E. cbn [orb]. unfold at_change at 1 2, have_change. rewrite Hg. rewrite (proj2 (step_eqb_iff c c) eq_refl). cbn [andb repeat]. now rewrite marks_true.
Qed.
