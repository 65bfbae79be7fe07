(** * Properties C95 and C97 with half weights: averages by the trapezoid rule,
    from the messages of the file to the fields written. *)
From Verif Require Import Base Num PyStr Strings Config Context Spec_Context Aggregator Converter Reader Spec_Reader Controller Spec_Controller Spec_Flow Spec_Aggregation Spec_Convert Spec_Series Spec_Total
  Base_P Context_P2 Reader_P Reader_P2 Reader_P3 Reader_P4 Controller_P2 Controller_P6 Manip_P Flow_P Series_P Aggregator_P9 Aggregator_P10
  Props_Context Props_Context2 Props_Reader Props_Reader2 Props_Controller Props_Flow Props_Aggregation Props_Series Props_Total.
From Coq Require Import Permutation Sorted.
Local Open Scope string_scope.

(** ** vocabulary *)
(** cell [j] of message [m] is not marked as absent by a bitmap *)
Definition present (m : gmsg) (j : nat) : Prop := exists b, has_int m "bitmapPresent" b /\ (b = 0%Z \/ nth j (gm_bitmap m) 1%Z <> 0%Z).
(** [l]: the end steps of the messages from step [a] to step [b], in order *)
Definition steps_within (ms : list gmsg) (a b : Z) (l : list Z) : Prop :=
  StronglySorted Z.lt l /\ forall t, In t l <-> (a <= t <= b)%Z /\ message_at ms t.

Lemma series_unmasked o x h ms size step step2 change m c m' : uniform ms size -> read_one ms step step2 change m -> converts o x h ->
  convert_messages (xt_numexpr o) x m = Ok (c, m') ->
  forall t a j, has_field (m_first m') t a -> (j < size)%nat -> (forall g, In g ms -> has_int g "endStep" t -> present g j) -> masked_at a j = false.
Proof.
  intros ([n Un] & (es & Ue & Nd) & Us) (Rn & _ & _ & Rw & Ro) Hh Hc t a j (k & Ha & Et) Hj Hp. destruct (Ro n Un) as (xs & X1 & X2 & _).
  pose proof (converts_fields _ _ _ _ _ _ Hh Hc) as F. destruct (Forall2_In_r _ _ _ _ F Ha) as ([k0 a0] & H0 & Hk & Hcv). cbn [fst snd] in Hk, Hcv. subst k0.
  destruct X2 as [_ X2]. apply X2 in H0 as (l1 & l2 & El & _).
  assert (Hin : In (k, a0) (entries step step2 change [] xs)) by (rewrite El; apply in_or_app; right; now left).
  apply entries_In in Hin as (_ & xs1 & r & xs2 & -> & _ & Ek & Ea). destruct (Forall2_In_r _ _ _ r X1) as (g & Hg & R); [apply in_or_app; right; now left|].
  destruct R as (_ & R2 & _ & _ & R5 & b & Rb & _ & Rm).
  assert (Lg : List.length (gm_values g) = size) by (rewrite Forall_forall in Us; exact (Us _ Hg)).
  destruct Hcv as (_ & Hcv). destruct (nth_error (adata a0) j) as [v|] eqn:Ev.
  2:{ apply nth_error_None in Ev. rewrite Ea, R5 in Ev. lia. }
  destruct (Hcv j v Ev) as (_ & _ & ->). rewrite Ea, Rm. rewrite Ek in Et. cbn [s_end] in Et. rewrite <- Et in Hp. destruct (Hp g Hg R2) as (b' & B1 & B2).
  assert (b' = b) by (unfold has_int in *; congruence). subst b'. destruct B2 as [-> | B2]; [reflexivity|]. destruct (Z.eqb_spec (nth j (gm_bitmap g) 1%Z) 0); [contradiction|]. apply andb_false_r.
Qed.

(** Averages with half weights asked for: the windows, their order and their
    numbers are those of C95; the source field of each holds, where the messages
    from the begin to the end of the window (both included) have a value, the
    trapezoid mean: weights [s]/[n] and half of it at the begin and at the end of
    the window, for [n]+1 messages *)
Theorem C95_half : forall o x nm f w v s' a u h, good_world w -> usable_request x nm ->
  aggregated_request x "average" a u -> jtruthy (x_ahalf x) = true -> converts o x h ->
  xt_file o (x_input x) = Some f -> usable_file f -> execute o x true (cst0 w) = (Ok v, s') ->
  let start := requested_or (x_tstart x) 0 in
  exists i last from, file_range x nm f i /\ last_step x i last /\ (from = start \/ from = Z.max 0 (start - a)) /\
   (Exists (wanted_message x nm from last) (gf_msgs f) ->
   exists ms, those (wanted_message x nm from last) (gf_msgs f) ms /\
    forall size, uniform ms size ->
     let first := first_window start a in
     let n := window_count first (average_end start last) a in
     map (fun w => window (wn_step w)) (c_out s') = map (fun k => let t := (first + Z.of_nat k * a)%Z in ((t - a)%Z, t)) (seq 0 n) /\
     map wn_map (c_out s') = map (fun k => ((if jis (x_format x) "pcraster" then 1 else 0) + Z.of_nat k)%Z) (seq 0 n) /\
     Forall (fun w => wn_second w = false /\ xt_map o (wn_grid w) false (wn_field w) = Ok (wn_out w) /\ (exists g0 m0, In m0 ms /\ grid_details g0 m0 = Ok (wn_grid w)) /\
       asize (wn_field w) = size /\
       forall l j q, steps_within ms (s_start (wn_step w)) (s_end (wn_step w)) l -> (2 <= List.length l)%nat -> (j < size)%nat ->
         (forall t, In t l -> datum h ms t j (q t) /\ forall m, In m ms -> has_int m "endStep" t -> present m j) ->
         let wt := half_weight (s_start (wn_step w)) a (Z.of_nat (List.length l) - 1) in
         cell (wn_field w) j (cut_value x (Qsum (map (fun t => wt t * q t) l) / Qsum (map wt l))%Qc)) (c_out s')).
Proof.
  intros o x nm f w [[vals m'] change] s' a u h Hw U Hreq Hhalf Hh Hx Hf H start. pose proof Hreq as (P1 & P2 & P3 & P4 & P5 & P6).
  destruct (execute_selected _ _ _ _ _ _ _ _ _ Hw U Hx Hf P1 H) as (i & t & s & e & g & m & s1 & sel & r & w1 & r' & w2 & A1 & _ & A2 & A3 & A4 & A5 & A6 & A7 & A8 & A9 & A10 & A11 & A12).
  destruct (C34_partial _ _ _ _ _ _ A2) as (Q1 & Q2 & Q3 & _ & Q5). destruct (Q5 P2) as (a' & Ea & Hg & He & Hs). clear Q5. assert (a' = a) by congruence. subst a'.
  destruct g as [g|]; [|congruence]. cbn [used_range fst snd] in Q1, Q2, Q3, He, Hs. exists i, e, s. split; [exact A1|]. split; [rewrite He; split; assumption|].
  split; [rewrite Hs, Q1; fold start; destruct (i_step i =? 0)%Z; auto|]. intro Hl.
  pose proof (asked_aggr _ _ _ _ _ _ _ _ _ Hreq A2) as Eg. rewrite Hhalf in Eg. fold start in Eg.
  destruct (select_wanted x nm U _ _ _ _ _ _ _ _ _ A4 Hf A5 A3 Hl A9) as (ms & M1 & M2). rewrite A6, A7, A8 in M2.
  exists ms. split; [exact M1|]. intros size Hu first n.
  assert (G2 : m_grid2 m = None) by (destruct Hu as ([nj Un] & _); destruct M2 as (_ & _ & _ & _ & Ro); destruct (Ro nj Un) as (xs & _ & _ & _ & X4); exact X4).
  destruct (written_fields _ _ _ _ _ _ _ _ _ _ _ _ _ _ M2 G2 A2 A10 A11 A12) as (c & out & C1 & C2 & C3 & C4 & C5 & C6 & C7).
  destruct (series_fields _ _ _ _ _ _ _ _ _ _ _ Hu M2 Hh C1) as (_ & F1 & F2 & F3 & F4 & F5). pose proof (series_unmasked _ _ _ _ _ _ _ _ _ _ _ Hu M2 Hh C1) as F6.
  rewrite Eg in C2.
  destruct (C10_average_windows _ _ _ _ _ _ _ _ _ _ _ P6 C2) as (k0 & a0 & rest & _ & D3 & D41 & D42).
  pose proof (C08_half_weights_trapezoid _ _ _ _ _ _ _ _ _ _ _ P6 F2 F3 C2) as D5. pose proof (average_half_size _ _ _ _ _ _ _ _ _ _ _ P6 F3 C2) as D6.
  assert (D4 : forall k, In k (map fst out) <-> exists t, on_grid first (average_end start e) a t /\ k = mkStep (t - a) t (s_res k0) a (s_level k0)).
  { intro k. unfold first, first_window, average_end, on_grid. destruct (Z.eqb_spec start 0) as [E0|E0].
    - rewrite (D42 (or_introl E0)). unfold on_grid. split.
      + intros (b & (z & Z0 & Zb & Zl) & ->). exists (b + a)%Z. split; [exists z; repeat split; lia|]. f_equal; lia.
      + intros (b & (z & Z0 & Zb & Zl) & ->). exists (b - a)%Z. split; [exists z; repeat split; lia|]. f_equal; lia.
    - rewrite (D41 E0 eq_refl). unfold on_grid. split.
      + intros (b & (z & Z0 & Zb & Zl) & ->). exists (b + a)%Z. split; [exists z; repeat split; lia|]. f_equal; lia.
      + intros (b & (z & Z0 & Zb & Zl) & ->). exists (b - a)%Z. split; [exists z; repeat split; lia|]. f_equal; lia. }
  destruct (in_order x a first (average_end start e) (s_res k0) (s_level k0) (fun t => t - a)%Z vals out (c_out s') P6 C3 C4 D3 D4 C5) as (Ln & O1 & O2). fold n in Ln, O1.
  split; [exact O1|]. split; [rewrite <- Ln; exact C6|].
  assert (Un : forall t0 c c', has_field (m_first m') t0 c -> has_field (m_first m') t0 c' -> c = c').
  { intros t0 c1 c2 (k1 & K1 & L1) (k2 & K2 & L2). assert (E : (k1, c1) = (k2, c2)) by (apply (NoDup_ends _ _ F2); [exact K1|exact K2|cbn [fst]; congruence]). congruence. }
  rewrite Forall_forall in C7. apply Forall_forall. intros wm Hwm. destruct (C7 _ Hwm) as (W1 & W2 & W3). split; [exact W1|]. split; [exact W2|]. split; [exact W3|].
  destruct (O2 _ Hwm) as (fld & Hb & Sz & Hcut). pose proof (D6 _ _ Hb) as Sb. split; [congruence|].
  intros l j q [Ls Lin] Ll Hj Hq wt. apply Hcut.
  apply (D5 _ _ l j q Hb Hj); [split; [exact Ls|]; intro t0; rewrite Lin, F4; reflexivity|exact Ll|].
  intros t0 c0 Ht0 Hc0. destruct (Hq t0 Ht0) as [Qd Qp]. split; [exact (F6 _ _ _ Hc0 Hj Qp)|]. destruct (F5 _ _ _ Qd) as (c1 & K1 & K2). now rewrite (Un _ _ _ Hc0 K1).
Qed.
Print Assumptions C95_half.

(** such a command succeeds, from step 0 too *)
Theorem C97_average_half : forall o x nm f w a u h, good_world w -> usable_request x nm ->
  aggregated_request x "average" a u -> jtruthy (x_ahalf x) = true -> converts o x h -> works o x -> steps_given x ->
  xt_file o (x_input x) = Some f -> usable_file f -> complete_file nm f -> Exists (same_variable x nm) (gf_msgs f) ->
  (forall m, In m (gf_msgs f) -> same_variable x nm m -> ~ has_text m "stepType" "accum") ->
  (0 <= requested_or (x_tstart x) 0)%Z -> (forall i last, file_range x nm f i -> last_step x i last -> (requested_or (x_tstart x) 0 <= last)%Z) -> reaches x nm f a ->
  succeeds o x w.
Proof.
  intros o x nm f w a u h Hw U Ar Hha Hh W Sg Hx Hf Hc Hex Hty H0 Hle Hre. apply (reaching o x nm f w a u h "average"); try assumption.
  intros t i values n e Ht Hv O S A. rewrite Hha. destruct Ar as (_ & _ & _ & _ & _ & P6). exact (average_half_total t i u a (x_aforce x) (requested_or (x_tstart x) 0) e false values n P6 Ht Hv S).
Qed.
Print Assumptions C97_average_half.

(** averages without half weights from step 0: the command succeeds if the last
    step plus 1 is no multiple of the aggregation step, and only then: otherwise one
    more window is made, for which no message is read *)
Theorem C97_average_from_zero : forall o x nm f w a u h, good_world w -> usable_request x nm ->
  aggregated_request x "average" a u -> jtruthy (x_ahalf x) = false -> converts o x h -> works o x -> steps_given x ->
  xt_file o (x_input x) = Some f -> usable_file f -> complete_file nm f -> Exists (same_variable x nm) (gf_msgs f) ->
  (forall m, In m (gf_msgs f) -> same_variable x nm m -> ~ has_text m "stepType" "accum") ->
  requested_or (x_tstart x) 0 = 0%Z -> (forall i last, file_range x nm f i -> last_step x i last -> (0 <= last)%Z /\ ~ (a | last + 1)%Z) -> reaches x nm f a ->
  succeeds o x w.
Proof.
  intros o x nm f w a u h Hw U Ar Hha Hh W Sg Hx Hf Hc Hex Hty H0 Hle Hre. pose proof Ar as (P1 & P2 & P3 & P4 & P5 & P6).
  apply (reaching_last o x nm f w a u h "average"); try assumption; [lia|intros i last A B; rewrite H0; exact (proj1 (Hle i last A B))|].
  intros t i values n e A B Ht Hv O S Av. rewrite Hha, H0. destruct (Hle i e A B) as [_ Hd].
  apply (average_succeeds_zero t (i_step i) u a (x_aforce x) e values n P6 Ht Hv O S). exists e. split; [exact Av|]. intros z (k & Hk & -> & Hl).
  assert (0 + k * a + a <> e + 1)%Z; [|lia]. intro E. apply Hd. exists (k + 1)%Z. lia.
Qed.
Print Assumptions C97_average_from_zero.
Theorem C97_average_from_zero_fails : forall o x nm f w a u h, good_world w -> usable_request x nm ->
  aggregated_request x "average" a u -> jtruthy (x_ahalf x) = false -> converts o x h ->
  xt_file o (x_input x) = Some f -> usable_file f -> requested_or (x_tstart x) 0 = 0%Z ->
  (forall i last, file_range x nm f i -> last_step x i last -> (0 <= last)%Z /\ (a | last + 1)%Z /\ Exists (wanted_message x nm 0 last) (gf_msgs f) /\
     forall ms, those (wanted_message x nm 0 last) (gf_msgs f) ms -> exists size, uniform ms size) ->
  forall v s', execute o x true (cst0 w) <> (Ok v, s').
Proof.
  intros o x nm f w a u h Hw U Ar Hha Hh Hx Hf H0 Hm v s' H. pose proof Ar as (_ & _ & _ & _ & _ & P6).
  pose proof (C95_average o x nm f w v s' a u h Hw U Ar Hha Hh Hx Hf H) as C. cbv zeta in C. rewrite H0 in C. destruct C as (i & last & from & A1 & A2 & A3 & C).
  assert (from = 0%Z) by (destruct A3 as [-> | ->]; [reflexivity|lia]). subst from. destruct (Hm i last A1 A2) as (L0 & (z & Hz) & Hex & Hu).
  destruct (C Hex) as (ms & M1 & M2). destruct (Hu ms M1) as (size & Us). destruct (M2 size Us) as (B1 & _ & B3). clear M2 C.
  change (first_window 0 a) with a in B1. change (average_end 0 last) with (last + 1)%Z in B1.
  assert (Wc : window_count a (last + 1) a = Z.to_nat z). { unfold window_count. rewrite Hz. replace (z * a - a)%Z with ((z - 1) * a)%Z by lia. rewrite Z.div_mul by lia. f_equal. lia. }
  rewrite Wc in B1. assert (Zp : (0 < z)%Z) by nia.
  assert (Hin : In ((last + 1 - a)%Z, (last + 1)%Z) (map (fun w0 => window (wn_step w0)) (c_out s'))).
  { rewrite B1. apply in_map_iff. exists (Z.to_nat (z - 1)). split; [rewrite Z2Nat.id by lia; f_equal; lia|apply in_seq; lia]. }
  apply in_map_iff in Hin as (wm & Ew & Hwm). rewrite Forall_forall in B3. destruct (B3 wm Hwm) as (_ & _ & _ & _ & Nx & _). unfold window in Ew. injection Ew as Es Ee.
  destruct (Nx (last + 1)%Z) as (r & (m & Hm1 & Hm2) & Hr & _); [lia|]. destruct M1 as (rest & Pm & Fm & _). rewrite Forall_forall in Fm.
  destruct (Fm m Hm1) as (_ & _ & _ & _ & _ & b & c & Hb & Hcc & Wn). assert (c = r) by (unfold has_int in *; congruence). subst c. unfold in_window in Wn. destruct (Z.eqb 0 last); lia.
Qed.
Print Assumptions C97_average_from_zero_fails.

(** ** Cases that meet the hypotheses *)
(** half weights over 0-12: (0.5*1 + 3 + 0.5*5)/2 = 3 *)
Definition ex_half (t1 t2 a : Z) : ctx :=
  mkCtx JNull (JStr "in.grb") (JNum t1) (JNum t2) JNull JNull JNull JNull JNull JNull JNull JNull (JStr "pcraster") JNull JNull JNull
    JNull JNull JNull JNull "" JNull JNull true false false (JStr "2t") JNull JNull JNull JNull false JNull JNull JNull
    JNull JNull JNull JNull (JNum 24) JNull (JNum a) (JStr "average") (JBool true) false.
Definition ex_bent : gfile := mkGfile true
  [ex_msg "2t" 0 0 2 0 0 [nint 1; nint 2]; ex_msg "2t" 6 6 2 0 0 [nint 3; nint 4]; ex_msg "2t" 12 12 2 0 0 [nint 9; nint 8]].
Lemma ex_bent_uniform : uniform (gf_msgs ex_bent) 2.
Proof.
  cbn [gf_msgs ex_bent]. split; [exists 2%Z; all_messages ltac:(reflexivity)|]. split; [|all_messages ltac:(reflexivity)]. exists [0; 6; 12]%Z. split; [repeat (constructor; [reflexivity|]); constructor|].
  repeat constructor; cbn; intuition discriminate.
Qed.
Definition bent (t : Z) : Qc := if (t =? 0)%Z then ZQ 1 else if (t =? 6)%Z then ZQ 3 else ZQ 9.
Example C95_half_nonvacuous : let o := ex_ext (Some ex_bent) in let x := ex_half 12 12 12 in let h := fun v : num => v in let ms := gf_msgs ex_bent in
  usable_request x "2t" /\ aggregated_request x "average" 12 24 /\ jtruthy (x_ahalf x) = true /\ converts o x h /\ usable_file ex_bent /\
  (exists v s', execute o x true (cst0 world0) = (Ok v, s')) /\
  those (wanted_message x "2t" 0 12) ms ms /\ uniform ms 2 /\ steps_within ms 0 12 [0; 6; 12]%Z /\
  (forall t, In t [0; 6; 12]%Z -> datum h ms t 0 (bent t) /\ forall m, In m ms -> has_int m "endStep" t -> present m 0) /\
  shown o x = (Ok tt, [(1, (0, 12), [Some (4, 1%positive); Some (9, 2%positive)])]%Z).
Proof.
  assert (Sh : shown (ex_ext (Some ex_bent)) (ex_half 12 12 12) = (Ok tt, [(1, (0, 12), [Some (4, 1%positive); Some (9, 2%positive)])]%Z)) by (vm_compute; reflexivity).
  cbv zeta. split; [exact (ex_usable (JNum 12) (JNum 12))|]. split; [do 5 (split; [reflexivity|]); lia|]. split; [reflexivity|]. split; [left; split; [reflexivity|auto]|].
  split; [file_ok|]. split; [exact (shown_ok _ _ _ Sh)|]. split; [apply those_all; cbn [gf_msgs ex_bent]; all_messages ex_wanted|]. split; [exact ex_bent_uniform|]. split; [|split; [|exact Sh]].
  - split; [repeat constructor|]. intro t. split.
    + intro Ht. cbn [In] in Ht. assert (Hr : (0 <= t <= 12)%Z) by lia. split; [exact Hr|]. destruct Ht as [<-|[<-|[<-|[]]]]; [eexists; split; [now left|reflexivity]|eexists; split; [right; now left|reflexivity]|eexists; split; [right; right; now left|reflexivity]].
    + intros (_ & m & Hm & Hz). cbn [gf_msgs ex_bent In] in Hm |- *. destruct Hm as [<-|[<-|[<-|[]]]]; vm_compute in Hz; injection Hz as <-; auto.
  - intros t Ht. split.
    + assert (Ms : forall v m' mv, In m' (gf_msgs ex_bent) -> dget String.eqb (gm_dbl m') "missingValue" = Some mv -> neqb (nint v) (nint 9999) = false -> ~ is_missing mv (nint v)).
      { intros v m' mv Hm' Hd N. assert (mv = nint 9999) by (cbn [gf_msgs ex_bent In] in Hm'; repeat (destruct Hm' as [<-|Hm']; [vm_compute in Hd; vm_compute; congruence|]); destruct Hm').
        subst mv. unfold is_missing. congruence. }
      cbn [In] in Ht. destruct Ht as [<-|[<-|[<-|[]]]].
      * exists (ex_msg "2t" 0 0 2 0 0 [nint 1; nint 2]), (nint 1). split; [now left|]. do 2 (split; [reflexivity|]). split; [reflexivity|]. intros m' mv A B. now apply (Ms 1%Z m').
      * exists (ex_msg "2t" 6 6 2 0 0 [nint 3; nint 4]), (nint 3). split; [right; now left|]. do 2 (split; [reflexivity|]). split; [reflexivity|]. intros m' mv A B. now apply (Ms 3%Z m').
      * exists (ex_msg "2t" 12 12 2 0 0 [nint 9; nint 8]), (nint 9). split; [right; right; now left|]. do 2 (split; [reflexivity|]). split; [reflexivity|]. intros m' mv A B. now apply (Ms 9%Z m').
    + intros m Hm _. cbn [gf_msgs ex_bent In] in Hm. destruct Hm as [<-|[<-|[<-|[]]]]; exists 0%Z; split; [reflexivity|now left|reflexivity|now left|reflexivity|now left].
Qed.
(** from step 0, over 6 hours *)
Example C97_half_nonvacuous : succeeds (ex_ext (Some ex_bent)) (ex_half 0 12 6) world0.
Proof.
  assert (Us : usable_request (ex_half 0 12 6) "2t") by exact (ex_usable (JNum 0) (JNum 12)).
  apply (C97_average_half (ex_ext (Some ex_bent)) (ex_half 0 12 6) "2t" ex_bent world0 6 24 (fun v => v)); [split; constructor|exact Us|do 5 (split; [reflexivity|]); lia|reflexivity|left; split; [reflexivity|auto]| |split; right; eexists; reflexivity|reflexivity|file_ok| | | |discriminate| |].
  - split; [reflexivity|]. split; [intros; eexists; reflexivity|left; auto].
  - exists 2%Z. cbn [gf_msgs ex_bent]. all_messages ltac:(intros; split; [apply ex_complete|reflexivity]).
  - left. split; [reflexivity|now left].
  - intros m Hm _. cbn [gf_msgs ex_bent In] in Hm. repeat (destruct Hm as [<-|Hm]; [discriminate|]). destruct Hm.
  - intros i last _ [La _]. rewrite (La ltac:(cbn; congruence)). discriminate.
  - intros i last _ [La _]. assert (last = 12%Z) by (apply La; cbn; congruence). subst last. split; [right; right; left; split; [ex_wanted|reflexivity]|]. intros from ms Hfrom T. exists 2%nat.
    assert (from = 0%Z) by (destruct Hfrom as [-> | ->]; reflexivity). subst from.
    apply (uniform_perm (gf_msgs ex_bent)); [|exact ex_bent_uniform]. apply Permutation_sym.
    apply (those_whole (wanted_message (ex_half 0 12 6) "2t" 0 12)); [cbn [gf_msgs ex_bent]; all_messages ex_wanted|exact T].
Qed.
(** steps 0 to 12, windows of 6 hours from step 0: the last window is 6-12; windows
    of 13 hours: the window 0-13 is made *)
Definition ex_plain_avg (t1 t2 a : Z) : ctx := ex_x "pcraster" (JNum t1) (JNum t2) true (JNum a) "average".
Example C97_from_zero_nonvacuous : succeeds (ex_ext (Some ex_bent)) (ex_plain_avg 0 12 6) world0 /\
  forall v s', execute (ex_ext (Some ex_bent)) (ex_plain_avg 0 12 13) true (cst0 world0) <> (Ok v, s').
Proof.
  assert (Us : forall a, usable_request (ex_plain_avg 0 12 a) "2t") by (intro; exact (ex_usable (JNum 0) (JNum 12))).
  assert (La12 : forall a i last, last_step (ex_plain_avg 0 12 a) i last -> last = 12%Z) by (intros a i last [La _]; apply La; cbn; congruence).
  assert (T12 : forall a ms, those (wanted_message (ex_plain_avg 0 12 a) "2t" 0 12) (gf_msgs ex_bent) ms -> exists size, uniform ms size).
  { intros a ms T. exists 2%nat. apply (uniform_perm (gf_msgs ex_bent)); [|exact ex_bent_uniform]. apply Permutation_sym.
    apply (those_whole (wanted_message (ex_plain_avg 0 12 a) "2t" 0 12)); [cbn [gf_msgs ex_bent]; all_messages ex_wanted|exact T]. }
  split.
  - apply (C97_average_from_zero (ex_ext (Some ex_bent)) (ex_plain_avg 0 12 6) "2t" ex_bent world0 6 24 (fun v => v)); [split; constructor|apply Us|do 5 (split; [reflexivity|]); lia|reflexivity|left; split; [reflexivity|auto]|apply ex_works; now left|split; right; eexists; reflexivity|reflexivity|file_ok| | | |reflexivity| |].
    + exists 2%Z. cbn [gf_msgs ex_bent]. all_messages ltac:(intros; split; [apply ex_complete|reflexivity]).
    + left. split; [reflexivity|now left].
    + intros m Hm _. cbn [gf_msgs ex_bent In] in Hm. repeat (destruct Hm as [<-|Hm]; [discriminate|]). destruct Hm.
    + intros i last _ La. apply La12 in La. subst last. split; [lia|]. intros [z Hz]. lia.
    + intros i last _ La. apply La12 in La. subst last. split; [right; right; left; split; [ex_wanted|reflexivity]|]. intros from ms Hfrom T.
      assert (from = 0%Z) by (destruct Hfrom as [-> | ->]; reflexivity). subst from. exact (T12 6%Z ms T).
  - apply (C97_average_from_zero_fails (ex_ext (Some ex_bent)) (ex_plain_avg 0 12 13) "2t" ex_bent world0 13 24 (fun v => v)); [split; constructor|apply Us|do 5 (split; [reflexivity|]); lia|reflexivity|left; split; [reflexivity|auto]|reflexivity|file_ok|reflexivity|].
    intros i last _ La. apply La12 in La. subst last. split; [lia|]. split; [exists 1%Z; lia|]. split; [left; ex_wanted|exact (T12 13%Z)].
Qed.
