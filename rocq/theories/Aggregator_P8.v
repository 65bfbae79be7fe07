(** * Proofs about the aggregator: accumulation with any number of gaps *)
From Verif Require Import Base Num Base_P Num_P Aggregator Spec_Aggregation Spec_Aggregation2 Aggregator_P Aggregator_P2 Aggregator_P3.
From Coq Require Import ZifyBool ZifyNat Sorting.Permutation Sorting.Sorted.
Ltac Zify.zify_post_hook ::= Z.div_mod_to_equations.
Local Open Scope Z_scope.

(** the binary search in a sorted list followed by smaller elements finds the
    right place if more elements of the sorted list are larger than there are
    appended ones *)
Lemma bisect_appended_loop b1 b2 x t : (forall u, In u b1 -> u < t) -> (forall u, In u b2 -> t < u) -> (forall u, In u x -> u < t) ->
  (List.length x < List.length b2)%nat -> forall fuel lo hi,
  (hi - lo <= fuel)%nat -> (lo <= List.length b1)%nat -> (List.length b1 <= hi)%nat ->
  (hi = List.length (b1 ++ b2 ++ x) \/ (hi <= List.length b1 + List.length b2)%nat) ->
  bisect_left_loop fuel (b1 ++ b2 ++ x) t lo hi = List.length b1.
Proof.
  intros H1 H2 Hx Hl. set (m1 := List.length b1) in *. set (m2 := List.length b2) in *.
  assert (HN : List.length (b1 ++ b2 ++ x) = (m1 + (m2 + List.length x))%nat) by (rewrite !app_length; reflexivity).
  rewrite HN.
  induction fuel as [|f IH]; intros lo hi Hf Hlo Hhi Hc; cbn [bisect_left_loop]; [lia|].
  destruct (Nat.ltb_spec lo hi) as [Hlt|Hge]; [|lia].
  pose proof (div2_bounds lo hi Hlt) as [B1 B2].
  assert (B3 : (2 * Nat.div2 (lo + hi) <= lo + hi)%nat).
  { pose proof (Nat.div2_odd (lo + hi)). lia. }
  set (mid := Nat.div2 (lo + hi)) in *.
  assert (Hmid : (mid < m1 + m2)%nat) by lia.
  destruct (Nat.lt_ge_cases mid m1) as [Hm|Hm].
  - assert (E : nth mid (b1 ++ b2 ++ x) 0 < t) by (rewrite app_nth1 by exact Hm; apply H1, nth_In; exact Hm).
    rewrite (proj2 (Z.ltb_lt _ _) E). apply IH; lia.
  - assert (E : t < nth mid (b1 ++ b2 ++ x) 0).
    { rewrite app_nth2 by exact Hm. fold m1. rewrite app_nth1 by (fold m2; lia). apply H2, nth_In. fold m2. lia. }
    assert (E' : (nth mid (b1 ++ b2 ++ x) 0 <? t) = false) by (apply Z.ltb_ge; lia).
    rewrite E'. apply IH; lia.
Qed.

Lemma neighbours_appended b1 b2 x t lo hi : (forall u, In u b1 -> u < t) -> (forall u, In u b2 -> t < u) -> (forall u, In u x -> u < t) ->
  (List.length x <= List.length b2)%nat -> neighbours ((b1 ++ [lo]) ++ (hi :: b2) ++ x) t = Ok (hi, lo) \/ ~ (lo < t < hi).
Proof.
  intros H1 H2 Hx Hl. destruct (Z_lt_dec lo t) as [Hlo|]; [|right; lia]. destruct (Z_lt_dec t hi) as [Hhi|]; [|right; lia]. left.
  assert (G1 : forall u, In u (b1 ++ [lo]) -> u < t) by (intros u Hu; apply in_app_iff in Hu as [Hu|[<-|[]]]; auto).
  assert (G2 : forall u, In u (hi :: b2) -> t < u) by (intros u [<-|Hu]; auto).
  assert (Hn : ~ In t ((b1 ++ [lo]) ++ (hi :: b2) ++ x)).
  { rewrite !in_app_iff. intros [H|[H|H]]; [specialize (G1 _ ltac:(apply in_app_iff; exact H))|specialize (G2 _ H)|specialize (Hx _ H)]; lia. }
  unfold neighbours.
  rewrite <- (bisect_agree _ _ Hn), Nat.eqb_refl.
  assert (Hb : bisect_left ((b1 ++ [lo]) ++ (hi :: b2) ++ x) t = S (List.length b1)).
  { unfold bisect_left. rewrite (bisect_appended_loop (b1 ++ [lo]) (hi :: b2) x t G1 G2 Hx); cbn [List.length]; try lia.
    - rewrite app_length. cbn. lia.
    - rewrite !app_length. lia. }
  rewrite Hb, py_index_nat.
  assert (E1 : nth_error ((b1 ++ [lo]) ++ (hi :: b2) ++ x) (S (List.length b1)) = Some hi).
  { rewrite nth_error_app2 by (rewrite app_length; cbn; lia). rewrite app_length. cbn [List.length].
    replace (S (List.length b1) - (List.length b1 + 1))%nat with O by lia. reflexivity. }
  rewrite E1. cbn [rbind]. replace (Z.of_nat (S (List.length b1)) - 1) with (Z.of_nat (List.length b1)) by lia. rewrite py_index_nat.
  assert (E2 : nth_error ((b1 ++ [lo]) ++ (hi :: b2) ++ x) (List.length b1) = Some lo).
  { rewrite <- app_assoc, nth_error_app2 by lia. rewrite Nat.sub_diag. reflexivity. }
  rewrite E2. reflexivity.
Qed.

Section Gaps.
  Variables (values : fields) (n : nat) (first end_ s : Z).
  Hypothesis Hs : 0 < s.
  Hypothesis Hfirst : 0 < first.
  Hypothesis Hone : one_per_step values.
  Hypothesis Hsz : same_size values n.
  Hypothesis Henough : enough_later values first end_ s.
  Let base := by_end_step values.

  Definition right (k : Z) (f : arr) : Prop :=
    asize f = n /\ forall i x, (i < n)%nat -> accum_value values k i x -> nth_error (adata f) i = Some (Fin x).
  Definition added (x : ofields) (a : Z) : Prop :=
    NoDup (map fst x) /\ forall k f, In (k, f) x -> on_grid (first - s) end_ s k /\ k < a /\ ~ available values k /\ right k f.

  Lemma base_right k f : dget Z.eqb base k = Some f -> right k f.
  Proof using Hone Hsz.
    intro H. apply by_end_step_get in H; [|exact Hone]. pose proof H as [st [Hin Est]]. split; [exact (proj1 (Hsz st f Hin))|].
    assert (Ha : available values k) by (exists f; exact H).
    intros i x _ [[E [Hn _]]|[_ Hv]]; [exfalso; apply Hn; rewrite <- E; exact Ha|].
    destruct Hv as [[c [Hc Hx]]|[lo [hi [cl [ch [xl [xh [Hg _]]]]]]]].
    - apply (by_end_step_get _ _ _ Hone) in H, Hc. rewrite H in Hc. injection Hc as <-. exact Hx.
    - destruct Hg as [Hl [_ [_ Hb]]]. destruct (Hb _ Ha); lia.
  Qed.

  Lemma get_app (x : ofields) k : ~ In k (dkeys x) -> dget Z.eqb (base ++ x) k = dget Z.eqb base k.
  Proof.
    intro Hn. induction base as [|[k0 f0] b IH]; cbn [app dget].
    - apply (dget_None Z.eqb Zeqb_spec'). exact Hn.
    - destruct (k =? k0); [reflexivity|exact IH].
  Qed.
  Lemma get_right x a k f : added x a -> dget Z.eqb (base ++ x) k = Some f -> right k f.
  Proof using Hone Hsz.
    intros [Hnd Hx] H. apply (dget_In Z.eqb Zeqb_spec') in H. apply in_app_iff in H as [H|H]; [|apply (Hx k f H)].
    apply base_right. apply (In_dget Z.eqb Zeqb_spec'); [apply by_end_step_NoDup|exact H].
  Qed.
  Lemma keys_app (x : ofields) : dkeys (base ++ x) = (dkeys base ++ dkeys x)%list.
  Proof. unfold dkeys. apply map_app. Qed.

  Lemma NoDup_app_single {A} (l : list A) a : NoDup l -> ~ In a l -> NoDup (l ++ [a]).
  Proof.
    clear. intros Hn Ha. apply (Permutation_NoDup (l := a :: l)); [apply Permutation_cons_append|]. constructor; assumption.
  Qed.

  (** splitting the sorted keys around a gap *)
  Lemma split_gap (l : list Z) t lo hi : Zsorted l -> In lo l -> In hi l -> lo < t < hi -> (forall u, In u l -> u <= lo \/ hi <= u) ->
    exists b1 b2, l = ((b1 ++ [lo]) ++ hi :: b2)%list /\ (forall u, In u b1 -> u < t) /\ (forall u, In u b2 -> t < u).
  Proof.
    clear. intros Hsrt Hlo Hhi Hlt Hgap.
    apply in_split in Hlo as [b1 [r ->]].
    assert (H1 : forall u, In u b1 -> u < lo).
    { intros u Hu. unfold Zsorted in Hsrt. clear -Hsrt Hu. induction b1 as [|b b1 IH]; [destruct Hu|].
      cbn [app] in Hsrt. inversion Hsrt as [|? ? Hs1 Hf]; subst. destruct Hu as [<-|Hu]; [|apply IH; assumption].
      rewrite Forall_forall in Hf. apply Hf. apply in_or_app. right. left. reflexivity. }
    assert (H2 : Zsorted (lo :: r)).
    { clear -Hsrt. induction b1 as [|b b1 IH]; [exact Hsrt|]. inversion Hsrt; subst. apply IH. assumption. }
    assert (Hr : In hi r).
    { apply in_app_iff in Hhi as [H|[H|H]]; [specialize (H1 _ H); lia|lia|exact H]. }
    destruct r as [|h r]; [destruct Hr|].
    assert (h = hi).
    { inversion H2 as [|? ? H3 H4]; subst. assert (Hlh : lo < h) by (inversion H4; assumption). inversion H3 as [|? ? Q5 H6]; subst.
      destruct (Hgap h) as [Hc|Hc]; [apply in_or_app; right; right; left; reflexivity|lia|].
      destruct Hr as [->|Hr]; [reflexivity|]. rewrite Forall_forall in H6. specialize (H6 _ Hr). lia. }
    subst h. exists b1, r. rewrite <- app_assoc. split; [reflexivity|]. split; [intros u Hu; specialize (H1 _ Hu); lia|].
    intros u Hu. inversion H2 as [|? ? H3 H4]; subst. inversion H3 as [|? ? H5 H6]; subst. rewrite Forall_forall in H6. specialize (H6 _ Hu). lia.
  Qed.

  Lemma fill_iter x t : added x t -> on_grid first end_ s t -> (available values t \/ exists lo hi, gap values lo t hi) ->
    exists x', acc_fill_iter (base ++ x) (dkeys (base ++ x)) t = Ok (base ++ x')%list /\ added x' (t + 1) /\
      (exists f, dget Z.eqb (base ++ x') t = Some f) /\ (forall k, k <> t -> dget Z.eqb (base ++ x') k = dget Z.eqb (base ++ x) k) /\
      (In t (dkeys base) -> x' = x).
  Proof using Hs Hfirst Hone Hsz Henough.
    intros Hadd Hg Hcase. pose proof Hadd as [Hnd Hx].
    assert (Hkx : forall k, In k (dkeys x) -> on_grid (first - s) end_ s k /\ k < t /\ ~ available values k).
    { intros k Hk. apply in_map_iff in Hk as [[k' f] [<- Hk]]. destruct (Hx _ _ Hk) as [A [B [C _]]]. auto. }
    assert (Hmono : added x (t + 1)). { split; [exact Hnd|]. intros k f Hk. destruct (Hx _ _ Hk) as [A [B [C D]]]. split; [exact A|]. split; [lia|]. split; assumption. }
    assert (Hntx : ~ In t (dkeys x)) by (intro H; destruct (Hkx _ H) as [_ [? _]]; lia).
    unfold acc_fill_iter. destruct Hcase as [Hav|[lo [hi Hgap]]].
    - assert (Hin : In t (dkeys base)) by (apply by_end_step_mem; exact Hav).
      assert (Hin' : In t (dkeys (base ++ x))) by (rewrite keys_app; apply in_or_app; left; exact Hin).
      rewrite (proj2 (zmem_In _ _) Hin'). exists x. split; [reflexivity|]. split; [exact Hmono|]. split; [|split; [reflexivity|intros; reflexivity]].
      apply (dmem_In Z.eqb Zeqb_spec') in Hin'. unfold dmem in Hin'. destruct (dget Z.eqb (base ++ x) t) as [f|]; [exists f; reflexivity|discriminate].
    - pose proof Hgap as [Hlt [[cl Hcl] [[ch Hch] Hbetween]]].
      assert (Hnb : ~ In t (dkeys base)).
      { unfold base. rewrite by_end_step_mem. intro H. destruct (Hbetween _ H); lia. }
      assert (Hnav : ~ available values t) by (intro H; apply Hnb; apply by_end_step_mem; exact H).
      assert (Hnt : ~ In t (dkeys (base ++ x))) by (rewrite keys_app, in_app_iff; tauto).
      rewrite (proj2 (zmem_nIn _ _) Hnt).
      destruct (split_gap (dkeys base) t lo hi) as [b1 [b2 [Eb [Hb1 Hb2]]]].
      { apply by_end_step_keys_sorted. } { apply by_end_step_mem. exists cl. exact Hcl. } { apply by_end_step_mem. exists ch. exact Hch. } { exact Hlt. }
      { intros u Hu. apply Hbetween. apply by_end_step_mem. exact Hu. }
      assert (Hnei : neighbours (dkeys (base ++ x)) t = Ok (hi, lo)).
      { rewrite keys_app, Eb, <- app_assoc. cbn [app].
        destruct (neighbours_appended b1 b2 (dkeys x) t lo hi Hb1 Hb2) as [H|H]; [intros u Hu; apply Hkx; exact Hu| |cbn [app] in H; exact H|contradiction].
        destruct (Henough t (dkeys x) Hg Hnav Hnd) as [later [Hld [Hl Hlen]]]; [intros u Hu; destruct (Hkx _ Hu) as [A [B C]]; auto|].
        assert (Hincl : incl later (hi :: b2)).
        { intros u Hu. destruct (Hl _ Hu) as [Ha Hut]. apply by_end_step_mem in Ha. fold base in Ha. rewrite Eb in Ha.
          apply in_app_iff in Ha as [Ha|Ha]; [|exact Ha]. apply in_app_iff in Ha as [Ha|[<-|[]]]; [specialize (Hb1 _ Ha); lia|lia]. }
        pose proof (NoDup_incl_length Hld Hincl) as Hc. cbn [List.length] in Hc.
        lia. }
      assert (Glo : dget Z.eqb (base ++ x) lo = Some cl).
      { rewrite get_app; [apply by_end_step_get; assumption|]. intro H. destruct (Hkx _ H) as [_ [_ Hc]]. apply Hc. exists cl. exact Hcl. }
      assert (Ghi : dget Z.eqb (base ++ x) hi = Some ch).
      { rewrite get_app; [apply by_end_step_get; assumption|]. intro H. destruct (Hkx _ H) as [_ [_ Hc]]. apply Hc. exists ch. exact Hch. }
      assert (Scl : asize cl = n) by (destruct Hcl as [k [Hin _]]; apply (Hsz k cl Hin)).
      assert (Sch : asize ch = n) by (destruct Hch as [k [Hin _]]; apply (Hsz k ch Hin)).
      assert (Hd : exists d, lin_expr (adata cl) (adata ch) t lo hi = Ok d).
      { unfold lin_expr. rewrite ew2_ok by (unfold asize in *; congruence). cbn [rbind].
        rewrite ew2_ok; [eauto|]. rewrite map_length, zipw_length. unfold asize in *. lia. }
      destruct Hd as [d Hd].
      assert (Sd : List.length d = n).
      { apply lin_expr_ok in Hd as [_ ->]. rewrite zipw_length, map_length, zipw_length. unfold asize in *. lia. }
      unfold interp_field. rewrite Hnei. cbn [rbind]. unfold dgetx. rewrite Ghi, Glo. cbn [rbind]. rewrite Hd. cbn [rbind].
      set (a := masked_where (get_masks [cl; ch]) d).
      rewrite (dset_new Z.eqb Zeqb_spec') by exact Hnt. rewrite <- app_assoc.
      exists (x ++ [(t, a)])%list. split; [reflexivity|].
      assert (Hnot0 : t <> 0).
      { destruct Hg as [j [Hj [-> _]]]. nia. }
      assert (Hra : right t a).
      { split; [unfold asize, a; rewrite adata_masked_where; exact Sd|].
        intros i y _ [[E _]|[_ Hv]]; [contradiction|]. unfold a. rewrite adata_masked_where.
        destruct Hv as [[c [Hc _]]|[lo' [hi' [cl' [ch' [xl [xh [Hg' [Hl' [Hh' [Hxl [Hxh ->]]]]]]]]]]]].
        { exfalso. apply Hnav. exists c. exact Hc. }
        destruct Hg' as [Hlt' [Hal [Hah Hb']]].
        assert (lo' = lo). { destruct (Hbetween lo' Hal) as [|]; [|lia]. destruct (Hb' lo (ex_intro _ cl Hcl)) as [|]; lia. }
        assert (hi' = hi). { destruct (Hbetween hi' Hah) as [|]; [lia|]. destruct (Hb' hi (ex_intro _ ch Hch)) as [|]; lia. }
        subst lo' hi'.
        assert (cl' = cl). { apply (by_end_step_get _ _ _ Hone) in Hl'. pose proof (proj2 (by_end_step_get _ _ _ Hone) Hcl). congruence. }
        assert (ch' = ch). { apply (by_end_step_get _ _ _ Hone) in Hh'. pose proof (proj2 (by_end_step_get _ _ _ Hone) Hch). congruence. }
        subst cl' ch'. eapply lin_expr_cell; [lia|exact Hd|exact Hxl|exact Hxh]. }
      assert (Hgs : on_grid (first - s) end_ s t).
      { destruct Hg as [j [Hj [-> Hle]]]. exists (j + 1). split; [lia|]. split; [lia|exact Hle]. }
      split.
      { split.
        - rewrite map_app. cbn [map fst]. apply NoDup_app_single; assumption.
        - intros k f Hk. apply in_app_iff in Hk as [Hk|[E|[]]].
          + destruct Hmono as [_ Hm]. apply Hm. exact Hk.
          + injection E as <- <-. split; [exact Hgs|]. split; [lia|]. split; assumption. }
      rewrite app_assoc, <- (dset_new Z.eqb Zeqb_spec') by exact Hnt.
      split; [exists a; rewrite (dget_dset Z.eqb Zeqb_spec'), Z.eqb_refl; reflexivity|].
      split; [|intro Hc; contradiction].
      intros k Hk. rewrite (dget_dset Z.eqb Zeqb_spec'). destruct (Z.eqb_spec k t); [contradiction|reflexivity].
  Qed.

  Lemma gap_body g rs lv x z out t : a_step g = s -> a_force g = false -> added x t -> on_grid first end_ s t ->
    (available values t \/ exists lo hi, gap values lo t hi) ->
    ((exists p, dget Z.eqb (base ++ x) (t - s) = Some p) \/ (x = [] /\ t = s /\ ~ available values 0 /\ z = false)) ->
    exists x' z' out', acc_body g n rs lv (mkAcc (base ++ x) z out) t = Ok (mkAcc (base ++ x') z' out') /\ added x' (t + 1) /\
      exists f, dget Z.eqb (base ++ x') t = Some f.
  Proof using Hs Hfirst Hone Hsz Henough.
    intros Es Ef Hadd Hg Hcase Hprev.
    destruct (fill_iter x t Hadd Hg Hcase) as [x1 [H1 [Hadd1 [[f Hf] [Hkeep Hsame]]]]].
    unfold acc_body. cbn [ac_v ac_zero ac_out]. rewrite H1. cbn [rbind]. rewrite Es.
    assert (Hfin : forall x2 z2 p, added x2 (t + 1) -> dget Z.eqb (base ++ x2) t = Some f -> dget Z.eqb (base ++ x2) (t - s) = Some p ->
      exists x' z' out', (do prev <- acc_prev_field n s (a_force g) (base ++ x2) t; do cur <- dgetx Z.eqb (base ++ x2) t;
        (let key := mkStep (t - s) t rs s lv in do out0 <- acc_out n (a_unit g) s cur prev; Ok (mkAcc (base ++ x2) z2 (dset step_eqb out key out0))))
        = Ok (mkAcc (base ++ x') z' out') /\ added x' (t + 1) /\ exists f, dget Z.eqb (base ++ x') t = Some f).
    { intros x2 z2 p Hadd2 Ht Hp. unfold acc_prev_field. rewrite Ef, andb_false_r. unfold dgetx. rewrite Hp, Ht. cbn [rbind].
      rewrite acc_out_ok; [|apply (get_right x2 (t + 1) t f Hadd2 Ht)|apply (get_right x2 (t + 1) (t - s) p Hadd2 Hp)]. cbn [rbind].
      exists x2. eexists. eexists. split; [reflexivity|]. split; [exact Hadd2|]. exists f. exact Ht. }
    destruct Hprev as [[p Hp]|[-> [Ets [Hn0 ->]]]].
    - assert (Hin : In (t - s) (dkeys (base ++ x))) by (apply (dmem_In Z.eqb Zeqb_spec'); unfold dmem; rewrite Hp; reflexivity).
      unfold acc_fill_prev. rewrite (proj2 (zmem_In _ _) Hin). cbn [negb]. rewrite andb_false_r. cbn [andb rbind].
      apply (Hfin x1 z p Hadd1 Hf). rewrite Hkeep by lia. exact Hp.
    - rewrite app_nil_r in *.
      assert (Hnb : ~ In 0 (dkeys base)) by (unfold base; rewrite by_end_step_mem; exact Hn0).
      assert (H0x : ~ In 0 (dkeys x1)).
      { intro Hc. apply in_map_iff in Hc as [[k fk] [Ek Hc]]. cbn [fst] in Ek. subst k.
        assert (Hd : dget Z.eqb (base ++ x1) 0 <> None).
        { intro Hd. apply (dget_None Z.eqb Zeqb_spec') in Hd. apply Hd. rewrite keys_app. apply in_or_app. right. apply in_map_iff. exists (0, fk). auto. }
        apply Hd. rewrite Hkeep by lia. apply (dget_None Z.eqb Zeqb_spec'). exact Hnb. }
      assert (Hnd : ~ In 0 (dkeys (base ++ x1))) by (rewrite keys_app, in_app_iff; tauto).
      assert (HFP : acc_fill_prev n s (base ++ x1) (dkeys base) t false = Ok ((base ++ x1 ++ [(0, Nd (zeros n))])%list, true)).
      { unfold acc_fill_prev. replace (t - s) with 0 by lia. rewrite (proj2 (zmem_nIn _ _) Hnb). change (0 <=? 0) with true. cbn [negb andb].
        assert (Hlate : exists u, In u (dkeys base) /\ 0 <= u).
        { destruct Hcase as [Hav|[lo [hi [Hlt [_ [Hh _]]]]]]; [exists t|exists hi]; (split; [apply by_end_step_mem; assumption|lia]). }
        destruct (bisect_left_exists (dkeys base) 0 (by_end_step_keys_sorted values) Hlate) as [y Hy].
        rewrite py_index_nat, Hy. cbn [rbind]. change (0 =? 0) with true. cbv iota.
        rewrite (dset_new Z.eqb Zeqb_spec') by exact Hnd. rewrite <- app_assoc. reflexivity. }
      rewrite HFP. cbn [rbind].
      assert (Ej : first = s).
      { destruct Hg as [j [Hj [E _]]]. destruct (Z.eq_dec j 0) as [->|Hj0]; [lia|]. assert (s <= j * s) by nia. lia. }
      assert (Hadd2 : added (x1 ++ [(0, Nd (zeros n))]) (t + 1)).
      { destruct Hadd1 as [Hd1 Hx1]. split; [rewrite map_app; cbn [map fst]; apply NoDup_app_single; assumption|].
        intros k fk Hk. apply in_app_iff in Hk as [Hk|[E|[]]]; [apply Hx1; exact Hk|]. injection E as <- <-.
        split; [exists 0; destruct Hg as [j [_ [_ Hle]]]; lia|]. split; [lia|]. split; [exact Hn0|].
        split; [apply zeros_length|]. intros i v Hi Hv. destruct Hv as [[_ [_ ->]]|[[Hc|Hc] _]]; [|contradiction|contradiction].
        cbn [adata]. apply nth_error_zeros; exact Hi. }
      apply (Hfin (x1 ++ [(0, Nd (zeros n))])%list true (Nd (zeros n)) Hadd2).
      + rewrite app_assoc, <- (dset_new Z.eqb Zeqb_spec') by exact Hnd. rewrite (dget_dset Z.eqb Zeqb_spec').
        destruct (Z.eqb_spec t 0); [lia|exact Hf].
      + rewrite app_assoc, <- (dset_new Z.eqb Zeqb_spec') by exact Hnd. rewrite (dget_dset Z.eqb Zeqb_spec').
        destruct (Z.eqb_spec (t - s) 0); [reflexivity|lia].
  Qed.

  Lemma gap_loop g rs lv l : a_step g = s -> a_force g = false -> forall t, chain s t l -> (forall u, In u l -> on_grid first end_ s u) ->
    (forall u, In u l -> available values u \/ exists lo hi, gap values lo u hi) -> forall x z out, added x t ->
    ((exists p, dget Z.eqb (base ++ x) (t - s) = Some p) \/ (x = [] /\ t = s /\ ~ available values 0 /\ z = false)) ->
    exists x' z' out' e, foldM (acc_body g n rs lv) l (mkAcc (base ++ x) z out) = Ok (mkAcc (base ++ x') z' out') /\ added x' e.
  Proof using Hs Hfirst Hone Hsz Henough.
    intros Es Ef. induction l as [|b l IH]; intros t Hc Hg Hcase x z out Hadd Hprev; cbn [foldM].
    - exists x, z, out, t. split; [reflexivity|exact Hadd].
    - inversion Hc as [|? ? Hc' E1 E2]; subst b.
      destruct (gap_body g rs lv x z out t Es Ef Hadd (Hg _ (or_introl eq_refl)) (Hcase _ (or_introl eq_refl)) Hprev) as [x1 [z1 [o1 [E [Ha [f Hf]]]]]].
      rewrite E. cbn [rbind]. apply (IH _ Hc'); [intros; apply Hg; right; assumption|intros; apply Hcase; right; assumption| |].
      + destruct Ha as [A B]. split; [exact A|]. intros k fk Hk. destruct (B _ _ Hk) as [P [Q R]]. split; [exact P|]. split; [lia|exact R].
      + left. exists f. replace (t + s - s) with t by lia. exact Hf.
  Qed.
End Gaps.

Theorem accumulation_gaps : forall stype input unit s half start end_ sec values n,
  let g := aggr_init stype input unit s "accumulation" half false start end_ sec in
  let first := first_window start s in
  values <> [] -> 0 < s -> 0 <= start -> one_per_step values -> same_size values n ->
  (forall t, on_grid first end_ s t -> available values t \/ exists lo hi, gap values lo t hi) ->
  enough_later values first end_ s ->
  available values (first - s) \/ first = s ->
  exists out k0 a0 rest,
    values = (k0, a0) :: rest /\
    do_manipulation g values = Ok out /\
    NoDup (map fst out) /\
    (forall k, In k (map fst out) <->
       exists t, on_grid first end_ s t /\ k = mkStep (t - s) t (s_res k0) s (s_level k0)) /\
    (forall k a, In (k, a) out -> forall i x y,
       series_value values (s_end k) i x -> accum_value values (s_start k) i y ->
       cell a i ((x - y) * ZQ unit / ZQ s)%Qc).
Proof.
  intros stype input unit s half start end_ sec values n g first Hne Hs Hst Hone Hsz Hav Hen H0.
  destruct values as [|[k0 a0] rest] eqn:Ev; [contradiction|]. rewrite <- Ev in *. clear Hne.
  assert (Hn0 : asize a0 = n) by (apply (Hsz k0 a0); rewrite Ev; left; reflexivity).
  assert (Hf0 : 0 < first) by (unfold first, first_window; destruct (Z.eqb_spec start 0); lia).
  destruct (py_range first (end_ + 1) s) as [iters|e] eqn:Er.
  2:{ rewrite py_range_pos_ok in Er by exact Hs. discriminate. }
  assert (Hgr : forall t, In t iters <-> on_grid first end_ s t) by (intro t; apply (in_grid_range _ _ _ _ t Hs Er)).
  assert (Hrun : exists x' z' out' e, accumulation_run g values = Ok (mkAcc (by_end_step values ++ x') z' out') /\ added values n first end_ s x' e).
  { unfold accumulation_run.
    assert (Hfe : first_entry values = Ok (k0, a0)) by (rewrite Ev; reflexivity).
    rewrite Hfe. cbn [rbind]. change (if a_start g =? 0 then a_step g else a_start g) with first.
    change (a_end g) with end_. change (a_step g) with s. rewrite Er. cbn [rbind]. rewrite Hn0.
    destruct (gap_loop values n first end_ s Hs Hf0 Hone Hsz Hen g (s_res k0) (s_level k0) iters eq_refl eq_refl first
      (py_range_chain _ _ _ _ Hs Er)) with (x := @nil (Z * arr)) (z := false) (out := @nil (step * arr)) as [x' [z' [out' [e [E Ha]]]]].
    - intros u Hu. apply Hgr. exact Hu.
    - intros u Hu. apply Hav, Hgr. exact Hu.
    - split; [constructor|intros k f []].
    - destruct (in_dec Z.eq_dec (first - s) (dkeys (by_end_step values))) as [Hi|Hi].
      + left. rewrite app_nil_r. apply (dmem_In Z.eqb Zeqb_spec') in Hi. unfold dmem in Hi.
        destruct (dget Z.eqb (by_end_step values) (first - s)) as [p|]; [exists p; reflexivity|discriminate].
      + rewrite by_end_step_mem in Hi. destruct H0 as [H0|H0]; [contradiction|]. right. split; [reflexivity|]. split; [exact H0|].
        split; [|reflexivity]. replace (first - s) with 0 in Hi by lia. exact Hi.
    - rewrite app_nil_r in E. exists x', z', out', e. split; assumption. }
  destruct Hrun as [x' [z' [out' [e [Hrun Hadd]]]]].
  destruct (accumulation_shape g values _ Hs Hrun) as [k0' [a0' [rest' [iters' [E [Er' [_ HF]]]]]]].
  rewrite Ev in E. injection E as <- <- <-. change (py_range first (end_ + 1) s = Ok iters') in Er'.
  rewrite Er in Er'. injection Er' as <-. cbn [ac_out ac_v] in HF.
  exists out', k0, a0, rest. split; [exact Ev|]. split.
  { unfold do_manipulation. cbn. unfold accumulation. rewrite Hrun. reflexivity. }
  split; [eapply acc_entries_NoDup; [exact (NoDup_py_range _ _ _ _ Hs Er)|exact HF]|]. split.
  - intro k. split.
    + intro Hi. apply in_map_iff in Hi as [kv [<- Hi]]. destruct (Forall2_In_r _ _ _ _ HF Hi) as [t [Ht [Hk _]]].
      exists t. split; [apply Hgr; exact Ht | exact Hk].
    + intros [t [Ht ->]]. apply Hgr in Ht.
      destruct (Forall2_In_l _ _ _ _ HF Ht) as [kv [Hi [Hk _]]]. apply in_map_iff. exists kv. split; [exact Hk|exact Hi].
  - intros k a Hi i x y Hx Hy.
    destruct (Forall2_In_r _ _ _ _ HF Hi) as [t [Ht [Hk [c [p [Hc [Hp [Hnc [Hnp Ha]]]]]]]]].
    cbn [fst snd] in Hk, Ha. rewrite Ha. unfold cell. rewrite adata_masked_where.
    rewrite Hk in Hx, Hy. cbn [s_end s_start] in Hx, Hy. change (a_step g) with s in *.
    assert (Htp : 0 < t). { apply Hgr in Ht. destruct Ht as [j [Hj [-> _]]]. nia. }
    assert (Hin : (i < n)%nat).
    { assert (Hb : forall u b z, has_field values u b -> cell b i z -> (i < n)%nat).
      { intros u b z [kb [Hb _]] Hz. rewrite <- (proj1 (Hsz kb b Hb)). unfold asize. apply nth_error_Some. unfold cell in Hz. congruence. }
      destruct Hx as [[c' [Hc' Hz]]|[lo [hi [cl [ch [xl [xh [_ [Hl [_ [Hz _]]]]]]]]]]]; eapply Hb; eassumption. }
    rewrite andb_false_r in Hp.
    apply acc_data_cell; [lia| |].
    + apply (get_right values n first end_ s Hone Hsz x' e t c Hadd Hc); [exact Hin|]. right. split; [left; lia|exact Hx].
    + apply (get_right values n first end_ s Hone Hsz x' e (t - s) p Hadd Hp); [exact Hin|exact Hy].
Qed.
