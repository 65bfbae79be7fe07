(** * Reader_P4: step detection (C58), reference dates (C60), selected messages at the level of the operations. *)
From Verif Require Import Base Num PyStr Config Context Aggregator Reader Spec_Reader Base_P Num_P PyStr_P Dec_P Context_P Context_P2 Reader_P Reader_P2 Reader_P3.
From Coq Require Import Permutation Sorted.
Local Open Scope string_scope.

(** ** minimum, maximum *)
Lemma zmin_spec l z : zmin_list l = Ok z -> is_min z l.
Proof.
  destruct l as [|a l]; [discriminate|]. cbn. intro H. injection H as <-.
  assert (G : forall l a, let r := fold_left Z.min l a in (r = a \/ In r l) /\ (r <= a)%Z /\ Forall (fun x => r <= x)%Z l).
  { clear. induction l as [|b l IH]; intro a; cbn; [repeat split; auto; lia|]. destruct (IH (Z.min a b)) as [H1 [H2 H3]].
    split; [|split; [lia|constructor; [lia|exact H3]]]. destruct H1 as [H1|H1]; [|auto]. destruct (Z.min_spec a b) as [[_ E]|[_ E]]; rewrite H1, E; auto. }
  destruct (G l a) as [H1 [H2 H3]]. split; [destruct H1 as [->|H1]; [now left|now right]|now constructor].
Qed.
Lemma zmax_spec l z : zmax_list l = Ok z -> is_max z l.
Proof.
  destruct l as [|a l]; [discriminate|]. cbn. intro H. injection H as <-.
  assert (G : forall l a, let r := fold_left Z.max l a in (r = a \/ In r l) /\ (a <= r)%Z /\ Forall (fun x => x <= r)%Z l).
  { clear. induction l as [|b l IH]; intro a; cbn; [repeat split; auto; lia|]. destruct (IH (Z.max a b)) as [H1 [H2 H3]].
    split; [|split; [lia|constructor; [lia|exact H3]]]. destruct H1 as [H1|H1]; [|auto]. destruct (Z.max_spec a b) as [[_ E]|[_ E]]; rewrite H1, E; auto. }
  destruct (G l a) as [H1 [H2 H3]]. split; [destruct H1 as [->|H1]; [now left|now right]|now constructor].
Qed.

(** ** sorted lists *)
Lemma sorted_perm_eq (l1 l2 : list Z) : StronglySorted Z.le l1 -> StronglySorted Z.le l2 -> Permutation l1 l2 -> l1 = l2.
Proof.
  intro H1. revert l2. induction H1 as [|a l1 Hs IH Ha]; intros l2 H2 Hp; [now apply Permutation_nil in Hp|].
  destruct l2 as [|b l2]; [now apply Permutation_sym, Permutation_nil in Hp|].
  inversion H2 as [|? ? Hs2 Hb]; subst.
  assert (a = b).
  { assert (Hia : In a (b :: l2)) by (eapply Permutation_in; [exact Hp|now left]).
    assert (Hib : In b (a :: l1)) by (eapply Permutation_in; [apply Permutation_sym; exact Hp|now left]).
    rewrite Forall_forall in Ha, Hb. destruct Hia as [E|Hia]; [auto|]. destruct Hib as [E|Hib]; [auto|]. specialize (Ha _ Hib). specialize (Hb _ Hia). lia. }
  subst b. f_equal. apply IH; [exact Hs2|]. now apply Permutation_cons_inv in Hp.
Qed.
Lemma lt_sorted_le l : StronglySorted Z.lt l -> StronglySorted Z.le l.
Proof. induction 1; constructor; auto. eapply Forall_impl; [|eassumption]. cbn. intros; lia. Qed.
Lemma lt_sorted_NoDup l : StronglySorted Z.lt l -> NoDup l.
Proof. induction 1 as [|a l Hs IH Ha]; constructor; auto. intro Hi. rewrite Forall_forall in Ha. specialize (Ha _ Hi). lia. Qed.
Lemma zsorted_sorted l : StronglySorted Z.le (zsorted l).
Proof. exact (sort_by_sorted (fun z => z) l). Qed.
Lemma zsorted_perm l : Permutation (zsorted l) l.
Proof. exact (sort_by_perm (fun z => z) l). Qed.

Lemma zsorted_ends ps es : end_steps ps es -> NoDup (map snd ps) -> zsorted (map snd ps) = es.
Proof.
  intros [Hs He] Hn. apply sorted_perm_eq; [apply zsorted_sorted|now apply lt_sorted_le|].
  rewrite zsorted_perm. apply NoDup_Permutation; [exact Hn|now apply lt_sorted_NoDup|]. intro z. symmetry. apply He.
Qed.

(** ** the spacing loop *)
Lemma spacing_uniform es ss d n i : spaced es 0 n d -> (1 <= i)%nat -> forall m, (i + m <= S n)%nat ->
  fold_left (spacing_body es ss d) (seq i m) (-1, "")%Z = (-1, "")%Z.
Proof.
  intros Hsp Hi m. revert i Hi. induction m as [|m IH]; intros i Hi Hm; [reflexivity|]. cbn [seq fold_left].
  unfold spacing_body at 2.
  assert (E : (nth i es 0 - nth (i - 1) es 0)%Z = d).
  { specialize (Hsp (i - 1)%nat). replace (S (i - 1)) with i in Hsp by lia. apply Hsp. lia. }
  rewrite E, !Z.eqb_refl. cbn [negb andb]. apply IH; lia.
Qed.
Lemma spacing_fixed es ss d l : forall s2 c, s2 <> (-1)%Z -> fold_left (spacing_body es ss d) l (s2, c) = (s2, c).
Proof.
  induction l as [|i l IH]; intros s2 c H; [reflexivity|]. cbn [fold_left]. unfold spacing_body at 2.
  destruct (Z.eqb_spec s2 (-1)); [contradiction|]. cbn [andb]. now apply IH.
Qed.

Lemma spacing_change es ss d e k n : spaced es 0 k d -> (1 <= k)%nat -> (S k < n)%nat ->
  (nth (S k) es 0 - nth k es 0 = e)%Z -> e <> d -> e <> (-1)%Z ->
  fold_left (spacing_body es ss d) (seq 2 (n - 2)) (-1, "")%Z = (e, label (nth (S k) ss 0%Z) (nth (S k) es 0%Z)).
Proof.
  intros Hsp Hk Hn He Hne Hm.
  replace (n - 2)%nat with ((k - 1) + S (n - k - 2))%nat by lia. rewrite seq_app, fold_left_app.
  rewrite (spacing_uniform es ss d k 2 Hsp) by lia. cbn [seq fold_left].
  replace (2 + (k - 1))%nat with (S k) by lia. unfold spacing_body at 2. rewrite Z.eqb_refl. cbn [andb].
  replace (S k - 1)%nat with k by lia. rewrite He. destruct (Z.eqb_spec e d); [contradiction|]. cbn [negb].
  now apply spacing_fixed.
Qed.

(** ** find_steps *)
Lemma find_steps_range ps i : find_steps ps = Ok i -> is_min (i_start i) (map fst ps) /\ is_max (i_end i) (map snd ps).
Proof.
  unfold find_steps. intro H. apply rbind_ok in H as [s [Hs H]]. apply rbind_ok in H as [e [He H]].
  apply zmin_spec in Hs. apply zmax_spec in He.
  destruct (1 <? _)%nat; [destruct (fold_left _ _ _)|]; injection H as <-; cbn; auto.
Qed.
Lemma find_steps_single s e : find_steps [(s, e)] = Ok (mkInfo s e (e - s) (-1) "").
Proof. reflexivity. Qed.

Lemma find_steps_uniform ps es d i : find_steps ps = Ok i -> end_steps ps es -> NoDup (map snd ps) ->
  (2 <= List.length es)%nat -> spaced es 0 (List.length es - 1) d -> i_step i = d /\ i_step2 i = (-1)%Z /\ i_change i = "".
Proof.
  intros H He Hn Hl Hsp. unfold find_steps in H. rewrite (zsorted_ends _ _ He Hn) in H.
  apply rbind_ok in H as [s [_ H]]. apply rbind_ok in H as [e [_ H]].
  destruct (Nat.ltb_spec 1 (List.length es)); [|lia].
  pose proof (Hsp 0%nat ltac:(lia)) as E. rewrite E in H.
  rewrite (spacing_uniform es _ d (List.length es - 1) 2 Hsp) in H by lia. injection H as <-. auto.
Qed.

Lemma find_steps_change ps es d e k i : find_steps ps = Ok i -> end_steps ps es -> NoDup (map snd ps) ->
  (1 <= k)%nat -> (S k < List.length es)%nat -> spaced es 0 k d ->
  (nth (S k) es 0 - nth k es 0 = e)%Z -> e <> d ->
  i_step i = d /\ i_step2 i = e /\ i_change i = label (nth (S k) (zsorted (map fst ps)) 0%Z) (nth (S k) es 0%Z).
Proof.
  intros H He Hn Hk Hl Hsp Hd Hne. unfold find_steps in H. rewrite (zsorted_ends _ _ He Hn) in H.
  apply rbind_ok in H as [s [_ H]]. apply rbind_ok in H as [e' [_ H]].
  destruct (Nat.ltb_spec 1 (List.length es)); [|lia].
  pose proof (Hsp 0%nat ltac:(lia)) as E. rewrite E in H.
  destruct He as [Hs _]. pose proof (Zsorted_nth es k (S k) Hs ltac:(lia) Hl) as Hpos.
  rewrite (spacing_change es _ d e k _ Hsp Hk Hl Hd Hne) in H by lia. injection H as <-. auto.
Qed.

(** with starts ordered like the ends, the label is that of the message *)
Lemma sorted_starts (ps qs : list (Z * Z)) : Permutation qs ps -> StronglySorted Z.le (map fst qs) -> zsorted (map fst ps) = map fst qs.
Proof.
  intros Hp Hs. apply sorted_perm_eq; [apply zsorted_sorted|exact Hs|]. rewrite zsorted_perm. apply Permutation_map. now apply Permutation_sym.
Qed.

(** ** selected messages of an indexed file *)
Lemma mapM_jstr names : mapM jstr (map JStr names) = Ok names.
Proof. induction names as [|n ns IH]; [reflexivity|]. cbn [map mapM jstr rbind]. rewrite IH. reflexivity. Qed.

Lemma retry_names sel sel' : retry_sel sel = Some sel' -> sel_names sel' = sel_names sel /\ sel_pert sel' = sel_pert sel /\
  dget String.eqb sel' "perturbationNumber" = dget String.eqb sel "perturbationNumber".
Proof.
  unfold retry_sel. destruct (dget String.eqb sel "startStep") as [[| |f]|]; try discriminate. destruct (f 0%Z); [discriminate|].
  intro H. injection H as <-. unfold sel_names, sel_pert. rewrite !(dget_dset String.eqb String_eqb_spec'). auto.
Qed.

Definition typed_pert (sel : selection) : Prop :=
  forall v, dget String.eqb sel "perturbationNumber" = Some v -> exists z, v = SVal (JNum z).

Lemma kept_perm sel r wp ms names : r_index r = Some wp -> kept sel r ms -> sel_names sel = Ok (map JStr names) -> NoDup names ->
  typed_pert sel -> Permutation ms (filter (accepted sel) (r_msgs r)).
Proof.
  intros Hi Hk Hn Hnd Hty. unfold kept in Hk. rewrite Hi in Hk. destruct Hk as [nm [sn [p [H1 [H2 [H3 ->]]]]]].
  rewrite Hn in H1. injection H1 as <-. rewrite mapM_jstr in H2. injection H2 as <-.
  apply by_names_perm; auto. intro Hne. apply H3. destruct names; [contradiction|discriminate].
Qed.

Lemma existsb_filter {A} (f : A -> bool) l : existsb f l = match filter f l with [] => false | _ => true end.
Proof. induction l as [|a l IH]; [reflexivity|]. cbn. destruct (f a); [reflexivity|exact IH]. Qed.

Lemma gids_selected sel r w wp names gs r' w' : good_world w -> r_index r = Some wp ->
  sel_names sel = Ok (map JStr names) -> NoDup names -> typed_pert sel ->
  get_gids sel r w = (Ok gs, (r', w')) ->
  exists ms sel', effective_sel sel (r_msgs r) sel' /\ Permutation ms (filter (accepted sel') (r_msgs r)) /\
    List.length gs = List.length ms /\ opened w w' (combine gs ms) /\ scanned r r'.
Proof.
  intros Hw Hi Hn Hnd Hty H. destruct (get_gids_spec _ _ _ _ _ _ Hw H) as [Hsc [ms [Hl [Ho Hk]]]].
  exists ms. destruct Hk as [[Hk Hc]|[Hk0 [sel' [r1 [Hr [Hk [Hs1 _]]]]]]].
  - exists sel. pose proof (kept_perm _ _ _ _ _ Hi Hk Hn Hnd Hty) as Hp. split; [|auto]. left. split; [reflexivity|].
    destruct Hc as [Hc|Hc]; [left|now right]. rewrite existsb_filter. destruct (filter _ _); [|reflexivity]. apply Permutation_sym, Permutation_nil in Hp. contradiction.
  - exists sel'. destruct (retry_names _ _ Hr) as [E1 [E2 E3]].
    pose proof (kept_perm _ _ _ _ _ Hi Hk0 Hn Hnd Hty) as Hp0. apply Permutation_nil in Hp0.
    assert (Hi1 : r_index r1 = Some wp) by (destruct Hs1 as [_ [_ [_ [_ [_ [_ [E _]]]]]]]; congruence).
    assert (Hm1 : r_msgs r1 = r_msgs r) by (destruct Hs1 as [_ [_ [_ [_ [_ [_ [_ [E _]]]]]]]]; congruence).
    assert (Hp : Permutation ms (filter (accepted sel') (r_msgs r1))).
    { apply (kept_perm sel' r1 wp ms names Hi1 Hk); [congruence|exact Hnd|]. intros v Hv. apply Hty. congruence. }
    rewrite Hm1 in Hp. split; [|auto]. right. split; [|exact Hr]. rewrite existsb_filter, Hp0. reflexivity.
Qed.

Lemma info_selected sel r w wp names x r' w' : good_world w -> r_index r = Some wp ->
  sel_names sel = Ok (map JStr names) -> NoDup names -> typed_pert sel ->
  get_grib_info sel r w = (Ok x, (r', w')) ->
  exists ms ps sel', effective_sel sel (r_msgs r) sel' /\ Permutation ms (filter (accepted sel') (r_msgs r)) /\
    Forall2 (fun m p => has_int m "startStep" (fst p) /\ has_int m "endStep" (snd p)) ms ps /\
    find_steps ps = Ok (fst (fst x)) /\
    r_step r' = i_step (fst (fst x)) /\ r_step2 r' = i_step2 (fst (fst x)) /\ r_change r' = i_change (fst (fst x)).
Proof.
  intros Hw Hi Hn Hnd Hty H. unfold get_grib_info in H. destruct (get_gids sel r w) as [y [r1 w1]] eqn:Eg.
  destruct y as [[|g gs]|e]; [discriminate| |discriminate].
  destruct (gids_selected _ _ _ _ _ _ _ _ Hw Hi Hn Hnd Hty Eg) as [ms [sel' [He [Hp [Hl [Ho _]]]]]].
  rewrite (opened_derefs _ _ _ _ Hw Hl Ho) in H.
  destruct (info_of (combine (g :: gs) ms)) as [[[inf t] mv]|e] eqn:Ei; [|discriminate].
  assert (Ex : x = (inf, t, mv)) by congruence. assert (Er : r' = set_steps r1 inf) by congruence. clear H. subst x r'. cbn [fst].
  unfold info_of in Ei. destruct (combine (g :: gs) ms) as [|[g0 m0] rest] eqn:Ec; [discriminate|]. rewrite <- Ec in Ei.
  apply rbind_ok in Ei as [t' [_ Ei]]. apply rbind_ok in Ei as [mv' [_ Ei]]. apply rbind_ok in Ei as [ps [Hps Ei]]. apply rbind_ok in Ei as [inf' [Hinf Ei]].
  assert (inf' = inf) by congruence. subst inf'.
  exists ms, ps, sel'. split; [exact He|]. split; [exact Hp|]. split; [|auto].
  apply mapM_Forall2 in Hps. rewrite <- (map_snd_combine (g :: gs) ms Hl).
  clear -Hps. induction Hps as [|gm p l ps Hx Hps IH]; [constructor|]. cbn [map]. constructor; [|exact IH].
  apply rbind_ok in Hx as [a [Ha Hx]]. apply rbind_ok in Hx as [b [Hb Hx]]. injection Hx as <-. apply kint_ok in Ha, Hb. auto.
Qed.

Lemma select_selected sel r w wp names m r' w' : good_world w -> r_index r = Some wp ->
  sel_names sel = Ok (map JStr names) -> NoDup names -> typed_pert sel ->
  select_messages sel r w = (Ok m, (r', w')) ->
  exists gms sel', effective_sel sel (r_msgs r) sel' /\ Permutation (map snd gms) (filter (accepted sel') (r_msgs r)) /\
    build_messages (r_step r) (r_step2 r) (r_change r) gms = Ok m.
Proof.
  intros Hw Hi Hn Hnd Hty H. unfold select_messages in H. destruct (get_gids sel r w) as [y [r1 w1]] eqn:Eg.
  destruct y as [[|g gs]|e]; [discriminate| |discriminate].
  destruct (gids_selected _ _ _ _ _ _ _ _ Hw Hi Hn Hnd Hty Eg) as [ms [sel' [He [Hp [Hl [Ho Hsc]]]]]].
  rewrite (opened_derefs _ _ _ _ Hw Hl Ho) in H. destruct Hsc as [_ [S1 [S2 [S3 _]]]]. rewrite S1, S2, S3 in H.
  destruct (build_messages (r_step r) (r_step2 r) (r_change r) (combine (g :: gs) ms)) as [m'|e] eqn:Eb; [|discriminate].
  assert (m' = m) by congruence. subst m'. exists (combine (g :: gs) ms), sel'. rewrite (map_snd_combine _ _ Hl). auto.
Qed.

(** ** C60: dates *)
Definition d2 (n : Z) : string := String (digit_char (n / 10)) (String (digit_char (n mod 10)) "").
Definition d4 (n : Z) : string := d2 (n / 100) +++ d2 (n mod 100).

Lemma str_snoc2 a n : (0 < a)%Z -> (0 <= n < 100)%Z -> str_of_Z (100 * a + n) = str_of_Z a +++ d2 n.
Proof.
  intros Ha Hn. pose proof (Z.div_mod n 10 ltac:(lia)) as E. pose proof (Z.mod_pos_bound n 10 ltac:(lia)) as Hm.
  assert (Hd : (0 <= n / 10 < 10)%Z) by (split; [apply Z.div_pos; lia|apply Z.div_lt_upper_bound; lia]).
  replace (100 * a + n)%Z with (10 * (10 * a + n / 10) + n mod 10)%Z by lia.
  rewrite str_of_Z_snoc by lia. rewrite str_of_Z_snoc by lia. rewrite sapp_assoc. reflexivity.
Qed.
Lemma str_two n : (10 <= n < 100)%Z -> str_of_Z n = d2 n.
Proof.
  intros Hn. pose proof (Z.div_mod n 10 ltac:(lia)) as E. pose proof (Z.mod_pos_bound n 10 ltac:(lia)) as Hm.
  assert (Hd : (1 <= n / 10 < 10)%Z) by (split; [apply Z.div_le_lower_bound; lia|apply Z.div_lt_upper_bound; lia]).
  rewrite E at 1. rewrite str_of_Z_snoc by lia. rewrite str_of_Z_digit by lia. reflexivity.
Qed.
Lemma str_four n : (1000 <= n < 10000)%Z -> str_of_Z n = d4 n.
Proof.
  intros Hn. pose proof (Z.div_mod n 100 ltac:(lia)) as E. pose proof (Z.mod_pos_bound n 100 ltac:(lia)) as Hm.
  assert (Hd : (10 <= n / 100 < 100)%Z) by (split; [apply Z.div_le_lower_bound; lia|apply Z.div_lt_upper_bound; lia]).
  rewrite E at 1. rewrite str_snoc2 by lia. rewrite str_two by lia. reflexivity.
Qed.

Lemma dig_char b : (0 <= b < 10)%Z -> dig (digit_char b) = Some b.
Proof. intro H. destruct (dig_digit_char b H) as [H1 H2]. unfold dig. rewrite H1, H2. reflexivity. Qed.

Lemma two_d2 ok n t : (0 <= n < 100)%Z -> two ok (d2 n +++ t) = if ok n then [(n, t)] else [].
Proof.
  intro Hn. pose proof (Z.div_mod n 10 ltac:(lia)) as E. pose proof (Z.mod_pos_bound n 10 ltac:(lia)) as Hm.
  assert (Hd : (0 <= n / 10 < 10)%Z) by (split; [apply Z.div_pos; lia|apply Z.div_lt_upper_bound; lia]).
  unfold d2. cbn [append two]. rewrite !dig_char by lia. rewrite <- E. reflexivity.
Qed.
Lemma between_true lo hi z : (lo <= z <= hi)%Z -> between lo hi z = true.
Proof. intro H. unfold between. destruct (Z.leb_spec lo z), (Z.leb_spec z hi); try lia; reflexivity. Qed.
Lemma between_false lo hi z : (z < lo \/ hi < z)%Z -> between lo hi z = false.
Proof. intro H. unfold between. destruct (Z.leb_spec lo z), (Z.leb_spec z hi); try lia; reflexivity. Qed.

Lemma p_month_d2 n t : (1 <= n <= 12)%Z -> exists l, p_month (d2 n +++ t) = (n, t) :: l.
Proof.
  intro Hn. unfold p_month. rewrite !two_d2 by lia.
  destruct (Z.leb_spec n 9).
  - rewrite (between_false 10 12) by lia. rewrite (between_true 1 9) by lia. eexists; reflexivity.
  - rewrite (between_true 10 12) by lia. eexists; reflexivity.
Qed.
Lemma p_day_d2 n t : (1 <= n <= 31)%Z -> exists l, p_day (d2 n +++ t) = (n, t) :: l.
Proof.
  intro Hn. unfold p_day. rewrite !two_d2 by lia.
  destruct (Z.leb_spec n 9); [|destruct (Z.leb_spec n 29)].
  - rewrite (between_false 30 31), (between_false 10 29), (between_true 1 9) by lia. eexists; reflexivity.
  - rewrite (between_false 30 31), (between_true 10 29) by lia. eexists; reflexivity.
  - rewrite (between_true 30 31) by lia. eexists; reflexivity.
Qed.
Lemma p_year_d4 n t : (0 <= n < 10000)%Z -> p_year (d4 n +++ t) = [(n, t)].
Proof.
  intro Hn. unfold d4. pose proof (Z.div_mod n 100 ltac:(lia)) as E. pose proof (Z.mod_pos_bound n 100 ltac:(lia)) as Hm.
  assert (Hd : (0 <= n / 100 < 100)%Z) by (split; [apply Z.div_pos; lia|apply Z.div_lt_upper_bound; lia]).
  set (a := (n / 100)%Z) in *. set (b := (n mod 100)%Z) in *.
  pose proof (Z.div_mod a 10 ltac:(lia)) as Ea. pose proof (Z.mod_pos_bound a 10 ltac:(lia)) as Ha.
  pose proof (Z.div_mod b 10 ltac:(lia)) as Eb. pose proof (Z.mod_pos_bound b 10 ltac:(lia)) as Hb.
  assert (Ha1 : (0 <= a / 10 < 10)%Z) by (split; [apply Z.div_pos; lia|apply Z.div_lt_upper_bound; lia]).
  assert (Hb1 : (0 <= b / 10 < 10)%Z) by (split; [apply Z.div_pos; lia|apply Z.div_lt_upper_bound; lia]).
  unfold d2. cbn [append p_year]. rewrite !dig_char by lia. do 2 f_equal. lia.
Qed.

Lemma days_31 y m : (days_in_month y m <= 31)%Z.
Proof. unfold days_in_month. destruct (m =? 2)%Z; [destruct (leap y); lia|]. destruct (_ || _)%bool; lia. Qed.
Lemma divide_mod a n : (0 < a)%Z -> (a | n)%Z <-> (n mod a = 0)%Z.
Proof. intro H. symmetry. apply Z.mod_divide. lia. Qed.
Lemma leap_spec y : leap y = true <-> leap_year y.
Proof.
  unfold leap, leap_year. rewrite !divide_mod by lia.
  destruct (Z.eqb_spec (y mod 4) 0), (Z.eqb_spec (y mod 100) 0), (Z.eqb_spec (y mod 400) 0); cbn; intuition congruence.
Qed.
Lemma month_days_spec y m n : month_days y m n <-> (1 <= m <= 12 /\ n = days_in_month y m)%Z.
Proof.
  unfold month_days. split.
  - intros [[-> ->]|[[-> H]|H]]; [split; [lia|reflexivity]| |].
    2:{ repeat (destruct H as [[-> ->]|H]; [split; [lia|reflexivity]|]). destruct H as [-> ->]. split; [lia|reflexivity]. }
    split; [lia|]. unfold days_in_month. cbn [Z.eqb Pos.eqb]. pose proof (leap_spec y). destruct (leap y); intuition congruence.
  - intros [Hm ->]. assert (C : (m = 1 \/ m = 2 \/ m = 3 \/ m = 4 \/ m = 5 \/ m = 6 \/ m = 7 \/ m = 8 \/ m = 9 \/ m = 10 \/ m = 11 \/ m = 12)%Z) by lia.
    repeat (destruct C as [-> | C]); try (subst m); try tauto.
    right; left. split; [reflexivity|]. unfold days_in_month. cbn [Z.eqb Pos.eqb]. pose proof (leap_spec y). destruct (leap y); intuition congruence.
Qed.
Lemma valid_day_spec y m d : valid_day y m d <-> (1000 <= y <= 9999 /\ 1 <= m <= 12 /\ 1 <= d <= days_in_month y m)%Z.
Proof.
  unfold valid_day. split.
  - intros [Hy [Hd [n [Hn Hl]]]]. apply month_days_spec in Hn as [Hm ->]. lia.
  - intros [Hy [Hm Hd]]. split; [lia|]. split; [lia|]. exists (days_in_month y m). rewrite month_days_spec. lia.
Qed.

Lemma strptime_any y m d t h rest l : (1000 <= y <= 9999 /\ 1 <= m <= 12 /\ 1 <= d <= 31)%Z -> p_hour t = (h, rest) :: l ->
  strptime (d4 y +++ d2 m +++ d2 d +++ t) =
  if (String.eqb rest "" && (d <=? days_in_month y m)%Z)%bool then Ok (mkDate y m d h) else Raise ValueError.
Proof.
  intros [Hy [Hm Hd]] Hh. unfold strptime.
  rewrite p_year_d4 by lia. cbn [flat_map]. rewrite app_nil_r.
  destruct (p_month_d2 m (d2 d +++ t) Hm) as [lm Em]. rewrite Em. cbn [flat_map].
  destruct (p_day_d2 d t ltac:(lia)) as [ld Ed]. rewrite Ed. cbn [flat_map]. rewrite Hh. cbn [map List.app].
  destruct rest as [|c rest]; cbn [String.eqb andb]; [|reflexivity]. cbn [d_year d_day d_month].
  destruct (Z.leb_spec 1 y); [|lia]. destruct (Z.leb_spec d (days_in_month y m)); reflexivity.
Qed.
Lemma strptime_date y m d t h rest l : valid_day y m d -> p_hour t = (h, rest) :: l ->
  strptime (d4 y +++ d2 m +++ d2 d +++ t) = if String.eqb rest "" then Ok (mkDate y m d h) else Raise ValueError.
Proof.
  intros Hv Hh. apply valid_day_spec in Hv as [Hy [Hm Hd]]. pose proof (days_31 y m) as H31.
  rewrite (strptime_any y m d t h rest l) by (auto; lia). destruct (Z.leb_spec d (days_in_month y m)); [|lia]. now rewrite Bool.andb_true_r.
Qed.

(** what the two characters of the time are read as *)
Definition hour_read (h mi : Z) : option Z :=
  if (10 <=? h)%Z then Some h
  else if (h =? 0)%Z then (if (mi <=? 23)%Z then Some mi else None)
  else if (10 * h + mi / 10 <=? 23)%Z then Some (10 * h + mi / 10)%Z else None.

Lemma hour_cases : forall h mi, (0 <= h <= 23)%Z -> (0 <= mi <= 59)%Z ->
  exists hr rest l, p_hour (stake 2 (str_of_Z (100 * h + mi))) = (hr, rest) :: l /\
    match hour_read h mi with Some x => rest = "" /\ hr = x | None => rest <> "" end.
Proof.
  assert (G : forallb (fun h => forallb (fun mi =>
     match p_hour (stake 2 (str_of_Z (100 * Z.of_nat h + Z.of_nat mi))) with
     | (hr, rest) :: _ => match hour_read (Z.of_nat h) (Z.of_nat mi) with Some x => (String.eqb rest "" && Z.eqb hr x)%bool | None => negb (String.eqb rest "") end
     | [] => false end) (seq 0 60)) (seq 0 24) = true) by (vm_compute; reflexivity).
  intros h mi Hh Hm. rewrite forallb_forall in G. specialize (G (Z.to_nat h) ltac:(apply in_seq; lia)). rewrite forallb_forall in G.
  specialize (G (Z.to_nat mi) ltac:(apply in_seq; lia)). rewrite !Z2Nat.id in G by lia.
  destruct (p_hour _) as [|[hr rest] l]; [discriminate|]. exists hr, rest, l. split; [reflexivity|].
  destruct (hour_read h mi).
  - apply andb_prop in G as [G1 G2]. apply String.eqb_eq in G1. apply Z.eqb_eq in G2. auto.
  - intro; subst rest. discriminate.
Qed.

Theorem ref_date_exact y m d h mi : valid_day y m d -> (0 <= h <= 23)%Z -> (0 <= mi <= 59)%Z ->
  ref_date (10000 * y + 100 * m + d) (100 * h + mi) =
  match hour_read h mi with Some x => Ok (mkDate y m d x) | None => Raise ValueError end.
Proof.
  intros Hv Hh Hm. destruct (hour_cases h mi Hh Hm) as [hr [rest [l [E R]]]]. unfold ref_date.
  assert (Es : str_of_Z (10000 * y + 100 * m + d) = d4 y +++ d2 m +++ d2 d).
  { apply valid_day_spec in Hv as [Hy [Hm' Hd]]. pose proof (days_31 y m). replace (10000 * y + 100 * m + d)%Z with (100 * (100 * y + m) + d)%Z by lia.
    rewrite str_snoc2 by lia. rewrite str_snoc2 by lia. rewrite str_four by lia. now rewrite sapp_assoc. }
  rewrite Es, !sapp_assoc. rewrite (strptime_date y m d _ hr rest l Hv E).
  destruct (hour_read h mi) as [x|]; [destruct R as [-> ->]; reflexivity|]. destruct (String.eqb_spec rest ""); [contradiction|reflexivity].
Qed.

(** a day that does not exist is refused *)
Theorem ref_date_impossible y m d h mi : (1000 <= y <= 9999 /\ 1 <= m <= 12 /\ 1 <= d <= 31)%Z -> ~ valid_day y m d ->
  (0 <= h <= 23)%Z -> (0 <= mi <= 59)%Z -> ref_date (10000 * y + 100 * m + d) (100 * h + mi) = Raise ValueError.
Proof.
  intros Hr Hv Hh Hm. destruct (hour_cases h mi Hh Hm) as [hr [rest [l [E _]]]]. unfold ref_date.
  assert (Es : str_of_Z (10000 * y + 100 * m + d) = d4 y +++ d2 m +++ d2 d).
  { replace (10000 * y + 100 * m + d)%Z with (100 * (100 * y + m) + d)%Z by lia.
    rewrite str_snoc2 by lia. rewrite str_snoc2 by lia. rewrite str_four by lia. now rewrite sapp_assoc. }
  rewrite Es, !sapp_assoc. rewrite (strptime_any y m d _ hr rest l Hr E).
  rewrite valid_day_spec in Hv. destruct (Z.leb_spec d (days_in_month y m)); [lia|]. now rewrite Bool.andb_false_r.
Qed.
