(** * Properties C94 and C95: accumulated and averaged maps, from the messages of
    the file to the fields written. Vocabulary: Spec_Series.v, Spec_Flow.v,
    Spec_Aggregation.v. *)
From Verif Require Import Base Num PyStr Strings Config Context Spec_Context Aggregator Converter Reader Spec_Reader Controller Spec_Controller Spec_Flow Spec_Aggregation Spec_Convert Spec_Series
  Base_P Context_P2 Reader_P Reader_P2 Reader_P3 Reader_P4 Controller_P2 Controller_P6 Manip_P Flow_P Series_P Aggregator_P9
  Props_Context Props_Context2 Props_Reader Props_Reader2 Props_Controller Props_Flow Props_Aggregation.
From Coq Require Import Permutation Sorted.
Local Open Scope string_scope.

(** ** lists in increasing order *)
Lemma sorted_same (l : list Z) : forall l', StronglySorted Z.lt l -> StronglySorted Z.lt l' -> (forall z, In z l <-> In z l') -> l = l'.
Proof.
  induction l as [|a l IH]; intros l' S S' E.
  - destruct l' as [|b l']; [reflexivity|]. exfalso. destruct (proj2 (E b)). now left.
  - destruct l' as [|b l']; [exfalso; destruct (proj1 (E a)); now left|]. inversion S as [|? ? S1 F1]; inversion S' as [|? ? S2 F2]; subst. rewrite Forall_forall in F1, F2.
    assert (a = b).
    { destruct (proj1 (E a) (or_introl eq_refl)) as [H|H]; [now symmetry|]. destruct (proj2 (E b) (or_introl eq_refl)) as [H'|H']; [exact H'|]. apply F2 in H. apply F1 in H'. lia. }
    subst b. f_equal. apply IH; [assumption..|]. intro z. split; intro Hz.
    + destruct (proj1 (E z) (or_intror Hz)) as [<-|H]; [|exact H]. apply F1 in Hz. lia.
    + destruct (proj2 (E z) (or_intror Hz)) as [<-|H]; [|exact H]. apply F2 in Hz. lia.
Qed.
Lemma sorted_strict l : StronglySorted Z.le l -> NoDup l -> StronglySorted Z.lt l.
Proof.
  induction 1 as [|a l S IH F]; intro N; constructor; inversion N as [|? ? N1 N2]; subst; [now apply IH|]. rewrite Forall_forall in *. intros b Hb. specialize (F b Hb).
  assert (a <> b) by (intros ->; contradiction). lia.
Qed.
Lemma sorted_map_iff {A} (f : A -> Z) l : StronglySorted (fun a b => f a <= f b)%Z l -> StronglySorted Z.le (map f l).
Proof. induction 1 as [|a l S IH F]; cbn; constructor; [exact IH|]. apply Forall_map. exact F. Qed.
Lemma progression_sorted first a n : (0 < a)%Z -> StronglySorted Z.lt (map (fun k => first + Z.of_nat k * a)%Z (seq 0 n)).
Proof.
  intro Ha. assert (H : forall m, StronglySorted Z.lt (map (fun k => first + Z.of_nat k * a)%Z (seq m n))); [|apply H].
  induction n as [|n IH]; intro m; cbn [seq map]; constructor; [apply IH|]. apply Forall_map, Forall_forall. intros k Hk. apply in_seq in Hk. nia.
Qed.
(** the ends of the windows *)
Definition window_count (first last a : Z) : nat := Z.to_nat ((last - first) / a + 1).
Lemma grid_list first last a t : (0 < a)%Z -> on_grid first last a t <-> In t (map (fun k => first + Z.of_nat k * a)%Z (seq 0 (window_count first last a))).
Proof.
  intro Ha. unfold on_grid, window_count. rewrite in_map_iff. split.
  - intros (i & Hi & -> & Hl). exists (Z.to_nat i). split; [rewrite Z2Nat.id by lia; reflexivity|]. apply in_seq. assert (i <= (last - first) / a)%Z by (apply Z.div_le_lower_bound; lia). lia.
  - intros (k & <- & Hk). apply in_seq in Hk. exists (Z.of_nat k). split; [lia|]. split; [reflexivity|]. assert (Z.of_nat k <= (last - first) / a)%Z by lia.
    pose proof (Z.mul_div_le (last - first) a Ha). nia.
Qed.

(** ** C94 *)
Lemma cut_cell_value x out k a : In (k, a) (cut x out) -> exists b, In (k, b) out /\ forall j q, cell b j q -> cell a j (cut_value x q).
Proof.
  unfold cut, cut_value. destruct (x_doConv x && x_cutoff x)%bool eqn:E; cbn [andb]; intro H.
  - unfold cut_off_fields in H. apply in_map_iff in H as ([k' b] & H & Hb). cbn [fst snd] in H. injection H as -> <-. exists b. split; [exact Hb|].
    intros j q Hq. unfold cell, cut_off_arr in *. cbn [adata]. rewrite (map_nth_error _ _ _ Hq). unfold cut_cell. change (nint 0) with (Fin 0%Qc). destruct (nltb (Fin q) (Fin 0%Qc)); reflexivity.
  - exists a. auto.
Qed.
(** the fields written, from the aggregation *)
Lemma written_fields o x ms i t s e g m vals m' change s1 s' : read_one ms (i_step i) (i_step2 i) (i_change i) m -> m_grid2 m = None ->
  choose_range x i t = Ok (s, e, Some g) -> exec_values (xt_numexpr o) x (i_step i) e (Some g) m = Ok (vals, m', change) -> c_out s1 = [] -> write_maps o x vals m' change s1 = (Ok tt, s') ->
  exists c out, convert_messages (xt_numexpr o) x m = Ok (c, m') /\ do_manipulation g (m_first m') = Ok out /\ Permutation vals (cut x out) /\ by_end vals /\
    map (fun w => (wn_step w, wn_field w)) (c_out s') = vals /\
    map wn_map (c_out s') = map (fun k => ((if jis (x_format x) "pcraster" then 1 else 0) + Z.of_nat k)%Z) (seq 0 (List.length vals)) /\
    Forall (fun w => wn_second w = false /\ xt_map o (wn_grid w) false (wn_field w) = Ok (wn_out w) /\ exists g0 m0, In m0 ms /\ grid_details g0 m0 = Ok (wn_grid w)) (c_out s').
Proof.
  intros (_ & (g0 & m0 & K1 & K2) & _) Hg Hr He O Hw.
  destruct (C35_single _ _ _ _ _ _ _ _ _ _ _ _ He Hg Hw) as (_ & (out & D1 & D2) & D3 & ws & D4 & D5 & D6 & D7). unfold produced in D1.
  assert (Hc : exists c, convert_messages (xt_numexpr o) x m = Ok (c, m')).
  { unfold exec_values in He. apply rbind_ok in He as [[c mm] [Hc He]]. apply rbind_ok in He as [[vv ch] [_ He]]. assert (mm = m') by congruence. subst mm. eauto. }
  destruct Hc as (c & Hc). exists c, out. split; [exact Hc|]. split; [exact D1|]. split; [exact D2|]. split; [exact D3|].
  rewrite O in D4. cbn [app] in D4. rewrite D4. clear D4.
  set (i0 := if jis (x_format x) "pcraster" then 1%Z else 0%Z) in *. destruct (numbered_spec vals i0) as [N1 N2]. rewrite <- D5 in N1, N2. rewrite map_map in N1, N2. cbn [fst snd] in N1, N2.
  split; [exact N1|]. split; [exact N2|].
  assert (Z1 : Forall (fun w => wn_second w = false) ws).
  { apply Forall_forall. intros w0 Hw0. apply (in_map wn_second) in Hw0. rewrite D6 in Hw0. exact (repeat_spec _ _ _ Hw0). }
  destruct (convert_messages_inv _ _ _ _ _ Hc) as (_ & _ & _ & Gm & _).
  rewrite Forall_forall in Z1, D7. apply Forall_forall. intros w0 Hw0. specialize (Z1 _ Hw0). destruct (D7 _ Hw0) as (G1 & G2 & _). rewrite Z1 in G1. split; [exact Z1|]. split; [exact G1|].
  exists g0, m0. split; [exact K1|]. rewrite (G2 Z1). congruence.
Qed.

(** what comes out of an aggregation, one field for each [t] of [first], [first] + [a], ... up
    to [last], beginning at [b t], is written in this order *)
Lemma in_order x a first last res lev (b : Z -> Z) vals out c_o : (0 < a)%Z -> Permutation vals (cut x out) -> by_end vals -> NoDup (map fst out) ->
  (forall k, In k (map fst out) <-> exists t, on_grid first last a t /\ k = mkStep (b t) t res a lev) ->
  map (fun w => (wn_step w, wn_field w)) c_o = vals ->
  let n := window_count first last a in
  List.length vals = n /\ map (fun w => window (wn_step w)) c_o = map (fun k => let t := (first + Z.of_nat k * a)%Z in (b t, t)) (seq 0 n) /\
  (forall w, In w c_o -> exists f, In (wn_step w, f) out /\ asize (wn_field w) = asize f /\ forall j q, cell f j q -> cell (wn_field w) j (cut_value x q)).
Proof.
  intros P6 C3 C4 D3 D4 C5 n.
  assert (Ke : forall k, In k (map fst vals) <-> In k (map fst out)).
  { intro k. rewrite <- (cut_keys x out). split; apply Permutation_in; [|apply Permutation_sym]; now apply Permutation_map. }
  assert (Nk : NoDup (map fst vals)).
  { eapply Permutation_NoDup; [apply Permutation_sym, Permutation_map, C3|]. rewrite cut_keys. exact D3. }
  assert (Ends : map (fun kv => s_end (fst kv)) vals = map (fun k => first + Z.of_nat k * a)%Z (seq 0 n)).
  { apply sorted_same.
    - apply sorted_strict; [apply sorted_map_iff; exact C4|]. rewrite <- (map_map fst s_end).
      assert (In2 : forall k, In k (map fst vals) -> k = mkStep (b (s_end k)) (s_end k) res a lev).
      { intros k Hk. apply Ke, D4 in Hk as (t' & _ & ->). reflexivity. }
      revert Nk In2. generalize (map fst vals). induction l as [|k l IH]; intros N I2; cbn [map]; constructor; inversion N as [|? ? N1 N2]; subst.
      + intro Hin. apply in_map_iff in Hin as (k' & E' & Hk'). apply N1. rewrite (I2 k (or_introl eq_refl)), <- E', <- (I2 k' (or_intror Hk')). exact Hk'.
      + apply IH; [exact N2|]. intros k' Hk'. apply I2. now right.
    - now apply progression_sorted.
    - intro z. pose proof (grid_list first last a z P6) as GL. fold n in GL. rewrite <- GL. rewrite <- (map_map fst s_end), in_map_iff. split.
      + intros (k & <- & Hk). apply Ke, D4 in Hk as (t' & Ht & ->). exact Ht.
      + intro Hz'. exists (mkStep (b z) z res a lev). split; [reflexivity|]. apply Ke, D4. exists z. split; [exact Hz'|reflexivity]. }
  split; [apply (f_equal (@List.length _)) in Ends; now rewrite !map_length, seq_length in Ends|]. split.
  - rewrite <- (map_map (fun w => (wn_step w, wn_field w)) (fun kv => window (fst kv))), C5.
    transitivity (map (fun z => (b z, z)) (map (fun kv => s_end (fst kv)) vals)); [|rewrite Ends, map_map; reflexivity].
    rewrite map_map. apply map_ext_in. intros [k f] Hk. apply (in_map fst) in Hk. apply Ke, D4 in Hk as (t' & _ & E'). cbn [fst] in E' |- *. rewrite E'. reflexivity.
  - intros wm Hwm.
    assert (Hin : In (wn_step wm, wn_field wm) (cut x out)).
    { apply (Permutation_in _ C3). rewrite <- C5. now apply (in_map (fun w => (wn_step w, wn_field w))). }
    destruct (cut_cell_value _ _ _ _ Hin) as (f & Hb & Hcut). exists f. split; [exact Hb|]. split; [|exact Hcut].
    clear -Hin Hb D3. unfold cut in Hin. destruct (x_doConv x && x_cutoff x)%bool.
    + unfold cut_off_fields in Hin. apply in_map_iff in Hin as ([k' b'] & E & Hb'). cbn [fst snd] in E. injection E as -> <-.
      assert (Eb : (wn_step wm, b') = (wn_step wm, f)) by (apply (NoDup_ends fst out D3); [exact Hb'|exact Hb|reflexivity]). injection Eb as ->.
      unfold cut_off_arr, asize. cbn [adata]. apply map_length.
    + assert (Eb : (wn_step wm, wn_field wm) = (wn_step wm, f)) by (apply (NoDup_ends fst out D3); [exact Hin|exact Hb|reflexivity]). injection Eb as ->. reflexivity.
Qed.

(** C05, for a whole series: when only step 0 is missing (or zeros are forced for
    it), accumulation succeeds with exactly the windows of the complete case and
    the first one subtracts zeros *)
Theorem C05_whole_series : forall stype input unit s half force start end_ sec values n,
  let g := aggr_init stype input unit s "accumulation" half force start end_ sec in
  let first := first_window start s in
  values <> [] -> (0 < s)%Z -> one_per_step values -> same_size values n ->
  (forall t, on_grid first end_ s t -> available values t /\ (t - s = 0 \/ available values (t - s)))%Z ->
  exists out k0 a0 rest,
    values = (k0, a0) :: rest /\
    do_manipulation g values = Ok out /\
    NoDup (map fst out) /\
    (forall k, In k (map fst out) <->
       exists t, on_grid first end_ s t /\ k = mkStep (t - s) t (s_res k0) s (s_level k0)) /\
    (forall k a, In (k, a) out ->
       asize a = n /\
       forall ct i x y, has_field values (s_end k) ct -> cell ct i x ->
         s_start k = 0%Z /\ (force = true \/ ~ available values 0) /\ y = 0%Qc \/
         ~ (s_start k = 0%Z /\ force = true) /\ (exists cp, has_field values (s_start k) cp /\ cell cp i y) ->
         cell a i ((x - y) * ZQ unit / ZQ s)%Qc).
Proof. exact accumulation_from_zero. Qed.
Print Assumptions C05_whole_series.

(** Amounts since the start of the forecast, one message for each end step: every
    window of the request gets one map, in order, numbered without gaps, made on
    the grid of the messages; its source field is, cell by cell, the (converted)
    amount at the end of the window minus that at its begin (0 at step 0 if the
    file has no message there or zeros are forced), times the time unit over the
    length of the window, set to 0 if negative and asked for *)
Theorem C94_accumulated : forall o x nm f w v s' a u h, good_world w -> usable_request x nm ->
  aggregated_request x "accumulation" a u -> converts o x h ->
  xt_file o (x_input x) = Some f -> usable_file f -> since_start nm f -> (0 <= requested_or (x_tstart x) 0)%Z ->
  execute o x true (cst0 w) = (Ok v, s') ->
  exists i last, file_range x nm f i /\ last_step x i last /\ ((0 < last)%Z ->
   exists ms, those (wanted_message x nm 0 last) (gf_msgs f) ms /\
    forall size, uniform ms size ->
     let first := first_window (requested_or (x_tstart x) 0) a in
     (forall t, on_grid first last a t -> message_at ms t /\ (t - a = 0 \/ message_at ms (t - a)))%Z ->
     let n := window_count first last a in
     map (fun w => window (wn_step w)) (c_out s') = map (fun k => let t := (first + Z.of_nat k * a)%Z in ((t - a)%Z, t)) (seq 0 n) /\
     map wn_map (c_out s') = map (fun k => ((if jis (x_format x) "pcraster" then 1 else 0) + Z.of_nat k)%Z) (seq 0 n) /\
     Forall (fun w => wn_second w = false /\ xt_map o (wn_grid w) false (wn_field w) = Ok (wn_out w) /\ (exists g0 m0, In m0 ms /\ grid_details g0 m0 = Ok (wn_grid w)) /\
       asize (wn_field w) = size /\
       forall j q p, datum h ms (s_end (wn_step w)) j q -> begin_amount (x_aforce x) h ms (s_start (wn_step w)) j p ->
         cell (wn_field w) j (cut_value x ((q - p) * ZQ u / ZQ a)%Qc)) (c_out s')).
Proof.
  intros o x nm f w [[vals m'] change] s' a u h Hw U (P1 & P2 & P3 & P4 & P5 & P6) Hh Hx Hf Hz H0 H.
  destruct (execute_selected _ _ _ _ _ _ _ _ _ Hw U Hx Hf P1 H) as (i & t & s & e & g & m & s1 & sel & r & w1 & r' & w2 & A1 & _ & A2 & A3 & A4 & A5 & A6 & A7 & A8 & A9 & A10 & A11 & A12).
  destruct (C34_partial _ _ _ _ _ _ A2) as (Q1 & Q2 & Q3 & _ & Q5). destruct (Q5 P2) as (a' & Ea & Hg & He & Hs). clear Q5. assert (a' = a) by congruence. subst a'.
  destruct g as [g|]; [|congruence]. cbn [used_range fst snd] in *. exists i, e. split; [exact A1|]. split; [rewrite He; split; assumption|]. intro Hl.
  assert (Eg : exists inp st hf, g = aggr_init st inp u a "accumulation" hf (x_aforce x) (requested_or (x_tstart x) 0) e false).
  { unfold choose_range in A2. apply rbind_ok in A2 as [s0 [_ A2]]. apply rbind_ok in A2 as [e0 [_ A2]]. rewrite P2 in A2. apply rbind_ok in A2 as [g' [Hn A2]].
    unfold new_aggr in Hn. rewrite P5, P4 in Hn. cbn [rbind] in Hn. rewrite P3 in Hn. cbn [aggr_name] in Hn. 
    assert (Gg : g' = g) by (destruct (real_start_end g') as [? ?]; congruence). subst g'. assert (Gi : g = aggr_init t (i_step i) u a "accumulation" (jtruthy (x_ahalf x)) (x_aforce x) s0 e0 false) by congruence.
    rewrite Gi in Q1, He. cbn [aggr_init a_start a_end] in Q1, He. rewrite <- Q1, He. eauto. }
  destruct Eg as (inp & st & hf & Eg).
  assert (S0 : (0 <= s)%Z) by (rewrite Hs, Q1; destruct (i_step i =? 0)%Z; lia).
  destruct (select_since x nm U _ _ _ _ _ _ _ _ _ S0 A4 Hf A5 Hz A3 ltac:(lia) A9) as (ms & M1 & M2). rewrite A6, A7, A8 in M2.
  exists ms. split; [exact M1|]. intros size Hu Hgrid. set (first := first_window (requested_or (x_tstart x) 0) a) in *. set (n := window_count first e a).
  assert (G2 : m_grid2 m = None) by (destruct Hu as ([nj Un] & _); destruct M2 as (_ & _ & _ & _ & Ro); destruct (Ro nj Un) as (xs & _ & _ & _ & X4); exact X4).
  destruct (written_fields _ _ _ _ _ _ _ _ _ _ _ _ _ _ M2 G2 A2 A10 A11 A12) as (c & out & C1 & C2 & C3 & C4 & C5 & C6 & C7).
  destruct (series_fields _ _ _ _ _ _ _ _ _ _ _ Hu M2 Hh C1) as (_ & F1 & F2 & F3 & F4 & F5).
  rewrite Eg in C2.
  destruct (accumulation_from_zero st inp u a hf (x_aforce x) (requested_or (x_tstart x) 0) e false (m_first m') size F1 P6 F2 F3) as (out' & k0 & a0 & rest & _ & D2 & D3 & D4 & D5).
  { intros t' Ht. destruct (Hgrid t' Ht) as [B1 B2]. split; [now apply F4|]. destruct B2 as [B2|B2]; [now left|right; now apply F4]. }
  assert (out' = out) by congruence. subst out'. clear D2.
  destruct (in_order x a first e (s_res k0) (s_level k0) (fun t => t - a)%Z vals out (c_out s') P6 C3 C4 D3 D4 C5) as (Ln & O1 & O2). fold n in Ln, O1.
  split; [exact O1|]. split; [rewrite <- Ln; exact C6|].
  rewrite Forall_forall in C7. apply Forall_forall. intros wm Hwm. destruct (C7 _ Hwm) as (W1 & W2 & W3). split; [exact W1|]. split; [exact W2|]. split; [exact W3|].
  destruct (O2 _ Hwm) as (fld & Hb & Sz & Hcut). destruct (D5 _ _ Hb) as [Sb Vb]. split; [congruence|].
  intros j q p Hq Hp. apply Hcut. destruct (F5 _ _ _ Hq) as (cq & Hcq & Xq). refine (Vb cq j q p Hcq Xq _).
  destruct Hp as [(Z1 & Z2 & Z3)|(Z1 & Z2)]; [left; split; [exact Z1|]; split; [|exact Z3]; destruct Z2 as [Z2|Z2]; [now left|right; intro K; apply Z2; now apply F4]|].
  right. split; [exact Z1|]. destruct (F5 _ _ _ Z2) as (cp & Hcp & Xp). eauto.
Qed.
Print Assumptions C94_accumulated.

(** ** C95: averages *)
(** the first window of averages from step 0 may end one step after the last
    one (C10_full is refuted) *)
Definition average_end (start last : Z) : Z := if (start =? 0)%Z then (last + 1)%Z else last.
Theorem C95_average : forall o x nm f w v s' a u h, good_world w -> usable_request x nm ->
  aggregated_request x "average" a u -> jtruthy (x_ahalf x) = false -> converts o x h ->
  xt_file o (x_input x) = Some f -> usable_file f -> execute o x true (cst0 w) = (Ok v, s') ->
  let start := requested_or (x_tstart x) 0 in
  exists i last from, file_range x nm f i /\ last_step x i last /\ (from = start \/ from = Z.max 0 (start - a)) /\
   (Exists (wanted_message x nm from last) (gf_msgs f) ->
   exists ms, those (wanted_message x nm from last) (gf_msgs f) ms /\
    forall size, uniform ms size ->
     let first := first_window start a in
     let n := window_count first (average_end start last) a in
     map (fun w => window (wn_step w)) (c_out s') = map (fun k => let t := (first + Z.of_nat k * a)%Z in ((t - a)%Z, t)) (seq 0 n) /\
     map wn_map (c_out s') = map (fun k => ((if jis (x_format x) "pcraster" then 1 else 0) + Z.of_nat k)%Z) (seq 0 n) /\
     Forall (fun w => wn_second w = false /\ xt_map o (wn_grid w) false (wn_field w) = Ok (wn_out w) /\ (exists g0 m0, In m0 ms /\ grid_details g0 m0 = Ok (wn_grid w)) /\
       asize (wn_field w) = size /\
       (forall t, (s_start (wn_step w) < t <= s_end (wn_step w))%Z -> exists r, next_message ms t r) /\
       forall j q, (j < size)%nat -> (forall t, (s_start (wn_step w) < t <= s_end (wn_step w))%Z -> exists r, next_message ms t r /\ datum h ms r j (q t)) ->
         cell (wn_field w) j (cut_value x (Qsum (map q (unit_steps (s_start (wn_step w)) a)) / ZQ a)%Qc)) (c_out s')).
Proof.
  intros o x nm f w [[vals m'] change] s' a u h Hw U Hreq Hhalf Hh Hx Hf H start. pose proof Hreq as (P1 & P2 & P3 & P4 & P5 & P6).
  destruct (execute_selected _ _ _ _ _ _ _ _ _ Hw U Hx Hf P1 H) as (i & t & s & e & g & m & s1 & sel & r & w1 & r' & w2 & A1 & _ & A2 & A3 & A4 & A5 & A6 & A7 & A8 & A9 & A10 & A11 & A12).
  destruct (C34_partial _ _ _ _ _ _ A2) as (Q1 & Q2 & Q3 & _ & Q5). destruct (Q5 P2) as (a' & Ea & Hg & He & Hs). clear Q5. assert (a' = a) by congruence. subst a'.
  destruct g as [g|]; [|congruence]. cbn [used_range fst snd] in Q1, Q2, Q3, He, Hs. exists i, e, s. split; [exact A1|]. split; [rewrite He; split; assumption|].
  split; [rewrite Hs, Q1; fold start; destruct (i_step i =? 0)%Z; auto|]. intro Hl.
  pose proof (asked_aggr _ _ _ _ _ _ _ _ _ Hreq A2) as Eg. rewrite Hhalf in Eg. fold start in Eg.
  destruct (select_wanted x nm U _ _ _ _ _ _ _ _ _ A4 Hf A5 A3 Hl A9) as (ms & M1 & M2). rewrite A6, A7, A8 in M2.
  exists ms. split; [exact M1|]. intros size Hu first n.
  assert (G2 : m_grid2 m = None) by (destruct Hu as ([nj Un] & _); destruct M2 as (_ & _ & _ & _ & Ro); destruct (Ro nj Un) as (xs & _ & _ & _ & X4); exact X4).
  destruct (written_fields _ _ _ _ _ _ _ _ _ _ _ _ _ _ M2 G2 A2 A10 A11 A12) as (c & out & C1 & C2 & C3 & C4 & C5 & C6 & C7).
  destruct (series_fields _ _ _ _ _ _ _ _ _ _ _ Hu M2 Hh C1) as (_ & F1 & F2 & F3 & F4 & F5).
  rewrite Eg in C2.
  destruct (C10_average_windows _ _ _ _ _ _ _ _ _ _ _ P6 C2) as (k0 & a0 & rest & _ & D3 & D41 & D42).
  pose proof (C07_average_backfilled_mean _ _ _ _ _ _ _ _ _ _ _ P6 F2 F3 C2) as D5.
  assert (D4 : forall k, In k (map fst out) <-> exists t, on_grid first (average_end start e) a t /\ k = mkStep (t - a) t (s_res k0) a (s_level k0)).
  { intro k. unfold first, first_window, average_end, on_grid. destruct (Z.eqb_spec start 0) as [E0|E0].
    - rewrite (D42 (or_introl E0)). unfold on_grid. split.
      + intros (b & (z & Z0 & Zb & Zl) & ->). exists (b + a)%Z. split; [exists z; repeat split; lia|]. f_equal; lia.
      + intros (b & (z & Z0 & Zb & Zl) & ->). exists (b - a)%Z. split; [exists z; repeat split; lia|]. f_equal; lia.
    - rewrite (D41 E0 eq_refl). unfold on_grid. split.
      + intros (b & (z & Z0 & Zb & Zl) & ->). exists (b + a)%Z. split; [exists z; repeat split; lia|]. f_equal; lia.
      + intros (b & (z & Z0 & Zb & Zl) & ->). exists (b - a)%Z. split; [exists z; repeat split; lia|]. f_equal; lia. }
  destruct (in_order x a first (average_end start e) (s_res k0) (s_level k0) (fun t => t - a)%Z vals out (c_out s') P6 C3 C4 D3 D4 C5) as (Ln & O1 & O2). fold n in Ln, O1.
  split; [exact O1|]. split; [rewrite <- Ln; exact C6|].
  assert (Nx : forall t r, first_at_or_after (m_first m') t r <-> next_message ms t r).
  { intros t0 r0. unfold first_at_or_after, next_message. rewrite F4. split; intros (N1 & N2 & N3); (split; [exact N1|]); (split; [exact N2|]); intros z Hz; apply N3; now apply F4. }
  rewrite Forall_forall in C7. apply Forall_forall. intros wm Hwm. destruct (C7 _ Hwm) as (W1 & W2 & W3). split; [exact W1|]. split; [exact W2|]. split; [exact W3|].
  destruct (O2 _ Hwm) as (fld & Hb & Sz & Hcut). destruct (D5 _ _ Hb) as (_ & Sb & Fb & Vb). split; [congruence|]. split.
  { intros t0 Ht0. destruct (Fb t0 Ht0) as (r0 & R0). exists r0. now apply Nx. }
  intros j q Hj Hq. apply Hcut. apply (Vb j q Hj). intros t0 Ht0. destruct (Hq t0 Ht0) as (r0 & R0 & Rd). destruct (F5 _ _ _ Rd) as (cq & Hcq & Xq). exists r0, cq. split; [now apply Nx|auto].
Qed.
Print Assumptions C95_average.

(** ** C96: values at single steps *)
Theorem C96_instantaneous : forall o x nm f w v s' a u h st, good_world w -> usable_request x nm ->
  aggregated_request x "instantaneous" a u -> converts o x h ->
  xt_file o (x_input x) = Some f -> usable_file f -> execute o x true (cst0 w) = (Ok v, s') ->
  (forall m, In m (gf_msgs f) -> same_variable x nm m -> has_text m "stepType" st) -> st <> "avg" ->
  let start := requested_or (x_tstart x) 0 in
  exists i last from, file_range x nm f i /\ last_step x i last /\ (from = start \/ from = Z.max 0 (start - a)) /\
   (Exists (wanted_message x nm from last) (gf_msgs f) ->
   exists ms, those (wanted_message x nm from last) (gf_msgs f) ms /\
    forall size, uniform ms size ->
     let first := if (0 <? start - a)%Z then (start - a)%Z else start in
     let n := window_count first last a in
     map (fun w => window (wn_step w)) (c_out s') = map (fun k => let t := (first + Z.of_nat k * a)%Z in (t, t)) (seq 0 n) /\
     map wn_map (c_out s') = map (fun k => ((if jis (x_format x) "pcraster" then 1 else 0) + Z.of_nat k)%Z) (seq 0 n) /\
     Forall (fun w => let t := s_end (wn_step w) in
       wn_second w = false /\ xt_map o (wn_grid w) false (wn_field w) = Ok (wn_out w) /\ (exists g0 m0, In m0 ms /\ grid_details g0 m0 = Ok (wn_grid w)) /\
       asize (wn_field w) = size /\
       (message_at ms t -> forall j q, datum h ms t j q -> cell (wn_field w) j (cut_value x q)) /\
       (~ message_at ms t -> t = 0%Z -> forall j, (j < size)%nat -> cell (wn_field w) j 0%Qc) /\
       (~ message_at ms t -> t <> 0%Z -> exists r, next_message ms t r /\ forall j q, datum h ms r j q -> cell (wn_field w) j (cut_value x q))) (c_out s')).
Proof.
  intros o x nm f w [[vals m'] change] s' a u h st Hw U Hreq Hh Hx Hf H Hst Hna start. pose proof Hreq as (P1 & P2 & P3 & P4 & P5 & P6).
  destruct (execute_selected _ _ _ _ _ _ _ _ _ Hw U Hx Hf P1 H) as (i & t & s & e & g & m & s1 & sel & r & w1 & r' & w2 & A1 & (mt & T1 & T2 & T3) & A2 & A3 & A4 & A5 & A6 & A7 & A8 & A9 & A10 & A11 & A12).
  assert (t = st) by (specialize (Hst mt T1 T2); unfold has_text in *; congruence). subst t.
  destruct (C34_partial _ _ _ _ _ _ A2) as (Q1 & Q2 & Q3 & _ & Q5). destruct (Q5 P2) as (a' & Ea & Hg & He & Hs). clear Q5. assert (a' = a) by congruence. subst a'.
  destruct g as [g|]; [|congruence]. cbn [used_range fst snd] in Q1, Q2, Q3, He, Hs. exists i, e, s. split; [exact A1|]. split; [rewrite He; split; assumption|].
  split; [rewrite Hs, Q1; fold start; destruct (i_step i =? 0)%Z; auto|]. intro Hl.
  pose proof (asked_aggr _ _ _ _ _ _ _ _ _ Hreq A2) as Eg. fold start in Eg.
  destruct (select_wanted x nm U _ _ _ _ _ _ _ _ _ A4 Hf A5 A3 Hl A9) as (ms & M1 & M2). rewrite A6, A7, A8 in M2.
  exists ms. split; [exact M1|]. intros size Hu first n.
  assert (G2 : m_grid2 m = None) by (destruct Hu as ([nj Un] & _); destruct M2 as (_ & _ & _ & _ & Ro); destruct (Ro nj Un) as (xs & _ & _ & _ & X4); exact X4).
  destruct (written_fields _ _ _ _ _ _ _ _ _ _ _ _ _ _ M2 G2 A2 A10 A11 A12) as (c & out & C1 & C2 & C3 & C4 & C5 & C6 & C7).
  destruct (series_fields _ _ _ _ _ _ _ _ _ _ _ Hu M2 Hh C1) as (_ & F1 & F2 & F3 & F4 & F5).
  rewrite Eg in C2.
  destruct (C12_instantaneous_copies _ _ _ _ _ _ _ _ _ _ _ _ P6 F2 F3 C2) as (k0 & a0 & rest & _ & D3 & D4 & D5).
  assert (Ef : inst_first st (i_step i) start a = first).
  { unfold inst_first. destruct (String.eqb_spec st "avg"); [contradiction|reflexivity]. }
  rewrite Ef in D4.
  destruct (in_order x a first e (s_res k0) (s_level k0) (fun t => t)%Z vals out (c_out s') P6 C3 C4 D3 D4 C5) as (Ln & O1 & O2). fold n in Ln, O1.
  split; [exact O1|]. split; [rewrite <- Ln; exact C6|].
  assert (Sz' : forall c t0, has_field (m_first m') t0 c -> asize c = size) by (intros c0 t0 (k & Hk & _); exact (proj1 (F3 _ _ Hk))).
  assert (Un : forall t0 c c', has_field (m_first m') t0 c -> has_field (m_first m') t0 c' -> c = c').
  { intros t0 c1 c2 (k1 & K1 & L1) (k2 & K2 & L2). assert (E : (k1, c1) = (k2, c2)) by (apply (NoDup_ends _ _ F2); [exact K1|exact K2|cbn [fst]; congruence]). congruence. }
  assert (Da : forall t0 c fld, has_field (m_first m') t0 c -> adata fld = adata c -> forall j q, datum h ms t0 j q -> cell fld j q).
  { intros t0 c0 fld Hc E j q Hd. destruct (F5 _ _ _ Hd) as (c1 & K1 & K2). rewrite (Un _ _ _ K1 Hc) in K2. unfold cell in *. now rewrite E. }
  rewrite Forall_forall in C7. apply Forall_forall. intros wm Hwm. cbv zeta. destruct (C7 _ Hwm) as (W1 & W2 & W3). split; [exact W1|]. split; [exact W2|]. split; [exact W3|].
  destruct (O2 _ Hwm) as (fld & Hb & Sz & Hcut). split.
  { rewrite Sz. unfold asize. destruct (D5 _ _ Hb) as [(c1 & K1 & ->)|[(_ & _ & ->)|(_ & _ & r0 & c1 & _ & K1 & ->)]]; [exact (Sz' _ _ K1)|unfold zeros; apply repeat_length|exact (Sz' _ _ K1)]. }
  assert (Z0 : cut_value x 0%Qc = 0%Qc) by (unfold cut_value; destruct (x_doConv x && x_cutoff x && nltb (Fin 0%Qc) (Fin 0%Qc))%bool; reflexivity).
  split; [|split].
  - intros Ha j q Hd. apply Hcut. destruct (D5 _ _ Hb) as [(c1 & K1 & K2)|[(K & _)|(K & _)]]; [exact (Da _ _ _ K1 K2 _ _ Hd)|elim K; now apply F4|elim K; now apply F4].
  - intros Ha H0 j Hj. rewrite <- Z0. apply Hcut. destruct (D5 _ _ Hb) as [(c1 & K1 & K2)|[(_ & _ & K)|(_ & K & _)]]; [elim Ha; apply F4; exists c1; exact K1| |congruence].
    unfold cell. rewrite K. unfold zeros. change (nint 0) with (Fin 0%Qc). now apply nth_error_repeat.
  - intros Ha H0. destruct (D5 _ _ Hb) as [(c1 & K1 & K2)|[(_ & K & _)|(_ & _ & r0 & c1 & K1 & K2 & K3)]]; [elim Ha; apply F4; exists c1; exact K1|congruence|].
    exists r0. split.
    + destruct K1 as (N1 & N2 & N3). split; [now apply F4|]. split; [lia|]. intros z Hz Hl'. apply F4 in Hz. apply N3; [exact Hz|].
      destruct (Z.eq_dec (s_end (wn_step wm)) z) as [E|E]; [elim Ha; rewrite E; now apply F4|lia].
    + intros j q Hd. apply Hcut. exact (Da _ _ _ K2 K3 _ _ Hd).
Qed.
Print Assumptions C96_instantaneous.

(** ** Cases that meet the hypotheses *)
Definition ex_rain : gfile := mkGfile true
  [ex_msg "2t" 0 0 2 0 0 [nint 0; nint 0]; ex_msg "2t" 0 6 2 0 0 [nint 3; nint 4]; ex_msg "2t" 0 12 2 0 0 [nint 5; nint 6]; ex_msg "2t" 0 18 2 0 0 [nint 5; nint 9]].
Definition ex_asked_x (t1 t2 : Z) (ty : string) : ctx := ex_x "pcraster" (JNum t1) (JNum t2) true (JNum 6) ty.
(** number, window and values of the maps written *)
Definition shown (o : ext) (x : ctx) : res unit * list (Z * (Z * Z) * list (option (Z * positive))) :=
  let '(r, s) := execute o x true (cst0 world0) in
  (match r with Ok _ => Ok tt | Raise e => Raise e end,
   map (fun w => (wn_map w, window (wn_step w), map (fun v => match v with Fin q => Some (Qnum (this q), Qden (this q)) | _ => None end) (adata (wn_field w)))) (c_out s)).
Lemma shown_ok o x l : shown o x = (Ok tt, l) -> exists v s', execute o x true (cst0 world0) = (Ok v, s').
Proof. unfold shown. destruct (execute o x true (cst0 world0)) as [[v|e] s']; intro H; [eauto|discriminate]. Qed.
Lemma those_all {A} (P : A -> Prop) l : Forall P l -> those P l l.
Proof. intro H. exists []. rewrite app_nil_r. split; [apply Permutation_refl|]. split; [exact H|constructor]. Qed.
Lemma ex_asked_usable t1 t2 ty : usable_request (ex_asked_x t1 t2 ty) "2t".
Proof. exact (ex_usable (JNum t1) (JNum t2)). Qed.
Ltac all_messages tac := cbn [gf_msgs ex_rain ex_uni List.tl]; repeat (apply Forall_cons; [cbv beta; tac|]); apply Forall_nil.
Ltac ex_wanted := split; [exists "2t"; split; [reflexivity|now left]|]; do 4 (split; [now left|]); do 2 eexists; split; [reflexivity|]; split; [reflexivity|cbn; lia].
Lemma ex_uniform f : f = ex_rain \/ f = ex_uni -> uniform (gf_msgs f) 2.
Proof.
  intros [-> | ->].
  - cbn [gf_msgs ex_rain ex_uni]. split; [exists 2%Z; all_messages ltac:(reflexivity)|]. split; [|all_messages ltac:(reflexivity)]. exists [0; 6; 12; 18]%Z. split; [repeat (constructor; [reflexivity|]); constructor|].
    repeat constructor; cbn; intuition discriminate.
  - cbn [gf_msgs ex_rain ex_uni]. split; [exists 2%Z; all_messages ltac:(reflexivity)|]. split; [|all_messages ltac:(reflexivity)]. exists [0; 6; 12]%Z. split; [repeat (constructor; [reflexivity|]); constructor|].
    repeat constructor; cbn; intuition discriminate.
Qed.
Lemma ex_datum f t j m v : In m (gf_msgs f) -> has_int m "endStep" t -> nth_error (gm_values m) j = Some (nint v) -> neqb (nint v) (nint 9999) = false -> f = ex_rain \/ f = ex_uni ->
  datum (fun v => v) (gf_msgs f) t j (ZQ v).
Proof.
  intros A B C D E. exists m, (nint v). do 3 (split; [assumption|]). split; [reflexivity|]. intros m' mv Hm' Hd.
  assert (Em : mv = nint 9999).
  { destruct E as [-> | ->]; cbn [gf_msgs ex_rain ex_uni In] in Hm'; repeat (destruct Hm' as [<-|Hm']; [vm_compute in Hd; vm_compute; congruence|]); destruct Hm'. }
  subst mv. unfold is_missing. congruence.
Qed.

(** steps 6-12 and 12-18 of amounts since the start: 24/6 times the differences *)
Example C94_nonvacuous : let o := ex_ext (Some ex_rain) in let x := ex_asked_x 12 18 "accumulation" in let h := fun v : num => v in
  usable_request x "2t" /\ aggregated_request x "accumulation" 6 24 /\ converts o x h /\ usable_file ex_rain /\ since_start "2t" ex_rain /\
  (exists v s', execute o x true (cst0 world0) = (Ok v, s')) /\
  those (wanted_message x "2t" 0 18) (gf_msgs ex_rain) (gf_msgs ex_rain) /\ uniform (gf_msgs ex_rain) 2 /\
  (forall t, on_grid (first_window 12 6) 18 6 t -> message_at (gf_msgs ex_rain) t /\ message_at (gf_msgs ex_rain) (t - 6)) /\
  datum h (gf_msgs ex_rain) 18 1 (ZQ 9) /\ datum h (gf_msgs ex_rain) 12 1 (ZQ 6) /\
  shown o x = (Ok tt, [(1, (6, 12), [Some (8, 1%positive); Some (8, 1%positive)]); (2, (12, 18), [Some (0, 1%positive); Some (12, 1%positive)])]%Z).
Proof.
  assert (Sh : shown (ex_ext (Some ex_rain)) (ex_asked_x 12 18 "accumulation") =
    (Ok tt, [(1, (6, 12), [Some (8, 1%positive); Some (8, 1%positive)]); (2, (12, 18), [Some (0, 1%positive); Some (12, 1%positive)])]%Z)) by (vm_compute; reflexivity).
  cbv zeta. split; [apply ex_asked_usable|]. split; [do 5 (split; [reflexivity|]); lia|]. split; [left; split; [reflexivity|auto]|].
  split; [file_ok|]. split; [all_messages ltac:(intros ? ? ?; split; [reflexivity|]; eexists; split; [reflexivity|lia])|].
  split; [exact (shown_ok _ _ _ Sh)|]. split; [apply those_all; all_messages ex_wanted|].
  split; [apply ex_uniform; now left|]. split.
  { intros t (k & Hk & -> & Hl). change (first_window 12 6) with 12%Z in *. assert (Hc : (k = 0 \/ k = 1)%Z) by lia.
    
    destruct Hc as [-> | ->]; split; [exists (ex_msg "2t" 0 12 2 0 0 [nint 5; nint 6])|exists (ex_msg "2t" 0 6 2 0 0 [nint 3; nint 4])|exists (ex_msg "2t" 0 18 2 0 0 [nint 5; nint 9])|exists (ex_msg "2t" 0 12 2 0 0 [nint 5; nint 6])];
      (split; [cbn [gf_msgs ex_rain In]; auto 10|reflexivity]). }
  split; [eapply (ex_datum ex_rain 18 1); [right; right; right; left; reflexivity|reflexivity|reflexivity|vm_compute; reflexivity|auto]|].
  split; [eapply (ex_datum ex_rain 12 1); [right; right; left; reflexivity|reflexivity|reflexivity|vm_compute; reflexivity|auto]|]. exact Sh.
Qed.

(** the same file without the message of step 0, from step 0: the first window
    gets the amount at step 6 *)
Definition ex_rain_late : gfile := mkGfile true (List.tl (gf_msgs ex_rain)).
Example C94_no_zero_nonvacuous : let o := ex_ext (Some ex_rain_late) in let x := ex_asked_x 0 18 "accumulation" in let h := fun v : num => v in
  let ms := gf_msgs ex_rain_late in
  usable_request x "2t" /\ aggregated_request x "accumulation" 6 24 /\ converts o x h /\ usable_file ex_rain_late /\ since_start "2t" ex_rain_late /\
  (exists v s', execute o x true (cst0 world0) = (Ok v, s')) /\
  those (wanted_message x "2t" 0 18) ms ms /\ uniform ms 2 /\
  (forall t, on_grid (first_window 0 6) 18 6 t -> message_at ms t /\ (t - 6 = 0 \/ message_at ms (t - 6)))%Z /\
  begin_amount (x_aforce x) h ms 0 1 0%Qc /\
  shown o x = (Ok tt, [(1, (0, 6), [Some (12, 1%positive); Some (16, 1%positive)]); (2, (6, 12), [Some (8, 1%positive); Some (8, 1%positive)]);
                       (3, (12, 18), [Some (0, 1%positive); Some (12, 1%positive)])]%Z).
Proof.
  assert (Sh : shown (ex_ext (Some ex_rain_late)) (ex_asked_x 0 18 "accumulation") =
    (Ok tt, [(1, (0, 6), [Some (12, 1%positive); Some (16, 1%positive)]); (2, (6, 12), [Some (8, 1%positive); Some (8, 1%positive)]);
             (3, (12, 18), [Some (0, 1%positive); Some (12, 1%positive)])]%Z)) by (vm_compute; reflexivity).
  cbv zeta. split; [apply ex_asked_usable|]. split; [do 5 (split; [reflexivity|]); lia|]. split; [left; split; [reflexivity|auto]|].
  split; [unfold ex_rain_late; file_ok|]. unfold ex_rain_late at 1. split; [unfold since_start; all_messages ltac:(intros ? ? ?; split; [reflexivity|]; eexists; split; [reflexivity|lia])|].
  split; [exact (shown_ok _ _ _ Sh)|]. unfold ex_rain_late at 1 2 3 4 5 6. split; [apply those_all; all_messages ex_wanted|].
  split.
  { cbn [gf_msgs ex_rain List.tl]. split; [exists 2%Z; all_messages ltac:(reflexivity)|]. split; [|all_messages ltac:(reflexivity)]. exists [6; 12; 18]%Z.
    split; [repeat (constructor; [reflexivity|]); constructor|]. repeat constructor; cbn; intuition discriminate. }
  split.
  { intros t (k & Hk & -> & Hl). change (first_window 0 6) with 6%Z in *. assert (Hc : (k = 0 \/ k = 1 \/ k = 2)%Z) by lia.
    destruct Hc as [-> | [-> | ->]]; split; [exists (ex_msg "2t" 0 6 2 0 0 [nint 3; nint 4])|left; lia|exists (ex_msg "2t" 0 12 2 0 0 [nint 5; nint 6])|right; exists (ex_msg "2t" 0 6 2 0 0 [nint 3; nint 4])
      |exists (ex_msg "2t" 0 18 2 0 0 [nint 5; nint 9])|right; exists (ex_msg "2t" 0 12 2 0 0 [nint 5; nint 6])];
      (split; [cbn [gf_msgs ex_rain List.tl In]; auto 10|reflexivity]). }
  split; [|exact Sh]. left. split; [reflexivity|]. split; [|reflexivity]. right. intros (m & Hm & He).
  cbn [gf_msgs ex_rain List.tl In] in Hm. repeat (destruct Hm as [<-|Hm]; [vm_compute in He; discriminate He|]). destruct Hm.
Qed.

(** fields for the steps 6, 12 and 18 only: three windows *)
Example C05_whole_series_nonvacuous :
  let values := [(mkStep 0 6 1 6 0, Nd [nint 3; nint 4]); (mkStep 0 12 1 6 0, Nd [nint 5; nint 6]); (mkStep 0 18 1 6 0, Nd [nint 5; nint 9])] in
  one_per_step values /\ same_size values 2 /\ ~ available values 0 /\
  (forall t, on_grid (first_window 0 6) 18 6 t -> available values t /\ (t - 6 = 0 \/ available values (t - 6)))%Z.
Proof.
  assert (A : forall t a k, In (k, a) [(mkStep 0 6 1 6 0, Nd [nint 3; nint 4]); (mkStep 0 12 1 6 0, Nd [nint 5; nint 6]); (mkStep 0 18 1 6 0, Nd [nint 5; nint 9])] -> s_end k = t ->
    available [(mkStep 0 6 1 6 0, Nd [nint 3; nint 4]); (mkStep 0 12 1 6 0, Nd [nint 5; nint 6]); (mkStep 0 18 1 6 0, Nd [nint 5; nint 9])] t) by (intros t a k H E; exists a, k; auto).
  cbv zeta. split; [repeat constructor; cbn; intuition discriminate|]. split.
  { intros k a Hi. cbn [In] in Hi. destruct Hi as [E|[E|[E|[]]]]; injection E as <- <-; split; reflexivity || exact I. }
  split.
  { intros (a & k & Hi & E). cbn [In] in Hi. destruct Hi as [H|[H|[H|[]]]]; injection H as <- <-; discriminate E. }
  intros t (k & Hk & -> & Hl). change (first_window 0 6) with 6%Z in *. assert (Hc : (k = 0 \/ k = 1 \/ k = 2)%Z) by lia.
  assert (A6 : available [(mkStep 0 6 1 6 0, Nd [nint 3; nint 4]); (mkStep 0 12 1 6 0, Nd [nint 5; nint 6]); (mkStep 0 18 1 6 0, Nd [nint 5; nint 9])] 6) by (eapply A; [now left|reflexivity]).
  assert (A12 : available [(mkStep 0 6 1 6 0, Nd [nint 3; nint 4]); (mkStep 0 12 1 6 0, Nd [nint 5; nint 6]); (mkStep 0 18 1 6 0, Nd [nint 5; nint 9])] 12) by (eapply A; [right; now left|reflexivity]).
  assert (A18 : available [(mkStep 0 6 1 6 0, Nd [nint 3; nint 4]); (mkStep 0 12 1 6 0, Nd [nint 5; nint 6]); (mkStep 0 18 1 6 0, Nd [nint 5; nint 9])] 18) by (eapply A; [right; right; now left|reflexivity]).
  destruct Hc as [-> | [-> | ->]]; split; [exact A6|left; reflexivity|exact A12|right; exact A6|exact A18|right; exact A12].
Qed.

(** averages over 0-6 and 6-12 of values at the steps 0, 6 and 12 *)
Example C95_nonvacuous : let o := ex_ext (Some ex_uni) in let x := ex_asked_x 6 12 "average" in let h := fun v : num => v in
  usable_request x "2t" /\ aggregated_request x "average" 6 24 /\ jtruthy (x_ahalf x) = false /\ converts o x h /\ usable_file ex_uni /\
  (exists v s', execute o x true (cst0 world0) = (Ok v, s')) /\
  Exists (wanted_message x "2t" 6 12) (gf_msgs ex_uni) /\ Exists (wanted_message x "2t" 0 12) (gf_msgs ex_uni) /\
  those (wanted_message x "2t" 0 12) (gf_msgs ex_uni) (gf_msgs ex_uni) /\ uniform (gf_msgs ex_uni) 2 /\
  (forall t, (6 < t <= 12)%Z -> exists r, next_message (gf_msgs ex_uni) t r /\ datum h (gf_msgs ex_uni) r 1 (ZQ 6)) /\
  shown o x = (Ok tt, [(1, (0, 6), [Some (3, 1%positive); Some (4, 1%positive)]); (2, (6, 12), [Some (5, 1%positive); Some (6, 1%positive)])]%Z).
Proof.
  assert (Sh : shown (ex_ext (Some ex_uni)) (ex_asked_x 6 12 "average") =
    (Ok tt, [(1, (0, 6), [Some (3, 1%positive); Some (4, 1%positive)]); (2, (6, 12), [Some (5, 1%positive); Some (6, 1%positive)])]%Z)) by (vm_compute; reflexivity).
  cbv zeta. split; [apply ex_asked_usable|]. split; [do 5 (split; [reflexivity|]); lia|]. split; [reflexivity|]. split; [left; split; [reflexivity|auto]|].
  split; [file_ok|]. split; [exact (shown_ok _ _ _ Sh)|]. split; [right; left; ex_wanted|]. split; [left; ex_wanted|].
  split; [apply those_all; all_messages ex_wanted|]. split; [apply ex_uniform; now right|]. split; [|exact Sh].
  intros t Ht. exists 12%Z. split.
  - split; [eexists; split; [right; right; left; reflexivity|reflexivity]|]. split; [lia|]. intros z (m & Hm & Hz) Hl.
    cbn [gf_msgs ex_uni In] in Hm. repeat (destruct Hm as [<-|Hm]; [vm_compute in Hz; injection Hz as <-; lia|]). destruct Hm.
  - eapply (ex_datum ex_uni 12 1); [right; right; left; reflexivity|reflexivity|reflexivity|vm_compute; reflexivity|auto].
Qed.

(** every 6 steps, from step 12 on: the values at 6 and 12 are written *)
Example C96_nonvacuous : let o := ex_ext (Some ex_uni) in let x := ex_asked_x 12 12 "instantaneous" in let h := fun v : num => v in
  usable_request x "2t" /\ aggregated_request x "instantaneous" 6 24 /\ converts o x h /\ usable_file ex_uni /\
  (exists v s', execute o x true (cst0 world0) = (Ok v, s')) /\
  (forall m, In m (gf_msgs ex_uni) -> same_variable x "2t" m -> has_text m "stepType" "instant") /\
  those (wanted_message x "2t" 6 12) (gf_msgs ex_uni) (List.tl (gf_msgs ex_uni)) /\ uniform (List.tl (gf_msgs ex_uni)) 2 /\
  message_at (List.tl (gf_msgs ex_uni)) 12 /\
  shown o x = (Ok tt, [(1, (6, 6), [Some (3, 1%positive); Some (4, 1%positive)]); (2, (12, 12), [Some (5, 1%positive); Some (6, 1%positive)])]%Z).
Proof.
  assert (Sh : shown (ex_ext (Some ex_uni)) (ex_asked_x 12 12 "instantaneous") =
    (Ok tt, [(1, (6, 6), [Some (3, 1%positive); Some (4, 1%positive)]); (2, (12, 12), [Some (5, 1%positive); Some (6, 1%positive)])]%Z)) by (vm_compute; reflexivity).
  cbv zeta. split; [apply ex_asked_usable|]. split; [do 5 (split; [reflexivity|]); lia|]. split; [left; split; [reflexivity|auto]|].
  split; [file_ok|]. split; [exact (shown_ok _ _ _ Sh)|]. split.
  { intros m Hm _. cbn [gf_msgs ex_uni In] in Hm. repeat (destruct Hm as [<-|Hm]; [reflexivity|]). destruct Hm. }
  split.
  { exists [List.hd (ex_msg "2t" 0 0 2 0 0 []) (gf_msgs ex_uni)]. split; [apply (Permutation_app_comm _ [_])|]. split; [cbn [List.tl gf_msgs ex_uni]; all_messages ex_wanted|].
    all_messages ltac:(intros (_ & _ & _ & _ & _ & b & c & B & C & Wn); unfold has_int in B, C; cbn in B, C; injection B as <-; injection C as <-; cbn in Wn; lia). }
  split.
  { cbn [List.tl gf_msgs ex_uni]. split; [exists 2%Z; all_messages ltac:(reflexivity)|]. split; [|all_messages ltac:(reflexivity)]. exists [6; 12]%Z. split; [repeat (constructor; [reflexivity|]); constructor|].
    repeat constructor; cbn; intuition discriminate. }
  split; [eexists; split; [right; left; reflexivity|reflexivity]|]. exact Sh.
Qed.
