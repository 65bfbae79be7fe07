(** * Property C97: commands on complete data succeed. Vocabulary: Spec_Total.v,
    Spec_Series.v, Spec_Flow.v. With C84 and C94-C96 (what a successful command
    writes) this is total correctness of a command on one input file. *)
From Verif Require Import Base Num PyStr Strings Config Context Spec_Context Aggregator Converter Reader Spec_Reader Controller Spec_Controller Spec_Flow Spec_Aggregation Spec_Convert Spec_Series Spec_Total
  Base_P Context_P2 Reader_P Reader_P2 Reader_P3 Reader_P4 Controller_P2 Controller_P6 Manip_P Flow_P Program_P Series_P Total_P Aggregator_P9
  Props_Context Props_Context2 Props_Reader Props_Reader2 Props_Controller Props_Flow Props_Aggregation Props_Series.
From Coq Require Import Permutation Sorted.
Local Open Scope string_scope.

(** ** the selection is not empty *)
Section Request.
  Variables (x : ctx) (nm : string) (f : gfile).
  Hypothesis (U : usable_request x nm) (Hf : usable_file f).
  Lemma wanted_accepted s e sel : select_cmd x s e = Ok sel -> Exists (wanted_message x nm s e) (gf_msgs f) -> existsb (accepted sel) (gf_msgs f) = true.
  Proof using U Hf.
    intros Hs H. apply Exists_exists in H as (m & M1 & M2). apply existsb_exists. exists m. split; [exact M1|]. now apply (accepted_wanted x nm U s e sel f m Hf M1 Hs).
  Qed.
  Lemma wanted_effective s e sel : select_cmd x s e = Ok sel -> Exists (wanted_message x nm s e) (gf_msgs f) ->
    forall sel', effective_sel sel (gf_msgs f) sel' -> existsb (accepted sel') (gf_msgs f) = true.
  Proof using U Hf.
    intros Hs H sel' E. pose proof (wanted_accepted _ _ _ Hs H) as A. destruct E as [[-> _]|[E _]]; [exact A|congruence].
  Qed.
  Lemma retry_done s e sel : select_cmd x s e = Ok sel -> (0 < s)%Z -> s <> e -> retry_sel sel <> None.
  Proof using.
    unfold select_cmd. destruct (x_short x) as [| | |nm'| |]; try discriminate. intros H P D.
    assert (E : sel = ([("shortName", SList [JStr nm'; JStr (upper nm'); JStr (nm' +++ "var")])] ++ opt_sel "level" (x_level x) ++ opt_sel "dataTime" (x_dataTime x) ++ opt_sel "dataDate" (x_dataDate x)
          ++ opt_sel "perturbationNumber" (x_member x)
          ++ (if Z.eqb s e then [("endStep", SVal (JNum e)); ("startStep", SVal (JNum s))]
              else [("endStep", SFun (fun s => Z.leb s e)); ("startStep", SFun (fun s0 => Z.leb s s0))]))%list) by congruence. clear H. subst sel.
    destruct (Z.eqb_spec s e) as [|_]; [contradiction|]. assert (L : (s <=? 0)%Z = false) by (apply Z.leb_gt; lia). unfold retry_sel, opt_sel.
    destruct (is_null (x_level x)), (is_null (x_dataTime x)), (is_null (x_dataDate x)), (is_null (x_member x)); cbn -[Z.leb]; rewrite L; discriminate.
  Qed.
  Lemma since_effective s e sel : select_cmd x s e = Ok sel -> (0 <= s)%Z -> (0 < e)%Z -> (s = 0 \/ s <> e)%Z -> Exists (wanted_message x nm 0 e) (gf_msgs f) ->
    forall sel', effective_sel sel (gf_msgs f) sel' -> existsb (accepted sel') (gf_msgs f) = true.
  Proof using U Hf.
    intros Hs H0 He D Hex. destruct (Z.eq_dec s 0) as [->|Ds]; [exact (wanted_effective _ _ _ Hs Hex)|]. assert (D' : s <> e) by tauto. intros sel' E.
    destruct E as [[-> [E|E]]|[_ E]]; [exact E|exfalso; exact (retry_done _ _ _ Hs ltac:(lia) D' E)|].
    destruct (retry_select x s e sel sel' Hs E) as (_ & _ & R). exact (wanted_accepted 0 e sel' (R ltac:(lia)) Hex).
  Qed.
End Request.
Lemma those_exists x nm f s e sel : usable_request x nm -> usable_file f -> select_cmd x s e = Ok sel ->
  those (wanted_message x nm s e) (gf_msgs f) (filter (accepted sel) (gf_msgs f)).
Proof. intros U Hf Hs. apply (those_filter _ (accepted sel)); [|apply Permutation_refl]. intros a Ha. now apply (accepted_wanted x nm U s e sel f). Qed.

(** different end steps: the spacing is not 0 *)
Lemma spacing_nonzero x nm f i : usable_request x nm -> since_start nm f -> distinct_ends x nm f -> steps_of x nm f i -> i_step i <> 0%Z.
Proof.
  intros U Hz D (ms & ps & T & F & S). assert (F2 : Forall2 (fun m t => has_int m "endStep" t) ms (map snd ps)).
  { clear -F. induction F as [|m p ms ps [_ H] F IH]; cbn [map]; constructor; auto. }
  destruct (D ms (map snd ps) T F2) as [N1 N2]. unfold find_steps in S. apply rbind_ok in S as [s [_ S]]. apply rbind_ok in S as [e [He S]].
  assert (Len : List.length (zsorted (map snd ps)) = List.length (map snd ps)) by (apply Permutation_length, zsorted_perm).
  destruct (Nat.ltb_spec 1 (List.length (zsorted (map snd ps)))) as [L|L].
  - assert (P : (nth 0 (zsorted (map snd ps)) 0 < nth 1 (zsorted (map snd ps)) 0)%Z).
    { apply Zsorted_nth; [|lia|exact L]. assert (Nz : NoDup (zsorted (map snd ps))) by (eapply Permutation_NoDup; [apply Permutation_sym, zsorted_perm|exact N1]).
      apply sorted_strict; [apply zsorted_sorted|exact Nz]. }
    destruct (fold_left _ _ _). injection S as <-. cbn [i_step]. lia.
  - destruct ps as [|[a b] [|? ?]]; [discriminate| |rewrite Len in L; cbn in L; lia].
    injection S as <-. cbn [i_step]. cbn. inversion F as [|m p ms' ps' [Fa Fb] F' E1 E2]; subst. inversion F'; subst. cbn [fst snd] in *.
    assert (Ea : a = 0%Z).
    { destruct T as (rest & P & A & _). inversion A as [|? ? [A1 _] _]; subst. assert (Hin : In m (gf_msgs f)) by (eapply Permutation_in; [exact P|now left]).
      unfold since_start in Hz. rewrite Forall_forall in Hz. destruct (Hz m Hin nm A1 (or_introl eq_refl)) as [Z0 _]. unfold has_int in *. rewrite Fa in Z0. congruence. }
    subst a. intro E. apply N2. cbn. f_equal. lia.
Qed.

(** ** C97: no aggregation *)
Theorem C97_plain : forall o x nm f w h, good_world w -> usable_request x nm ->
  jtruthy (x_input2 x) = false -> x_doAggr x = false -> converts o x h -> works o x -> steps_given x ->
  xt_file o (x_input x) = Some f -> usable_file f -> complete_file nm f -> Exists (same_variable x nm) (gf_msgs f) ->
  (forall i last, file_range x nm f i -> last_step x i last -> Exists (wanted_message x nm (requested_or (x_tstart x) 0) last) (gf_msgs f)) ->
  succeeds o x w.
Proof.
  intros o x nm f w h Hw U Hno Ha Hh W Sg Hx Hf [n Hc] Hex Hm.
  destruct (execute_total o x nm f w n Hw U Hx Hf Hc W Sg ltac:(congruence) Hno Hex) as (v & s' & H); [|exact (total_succeeds _ _ _ _ _ H)].
  intros i t s e g sel So St Hr Hs. destruct (C34_partial _ _ _ _ _ _ Hr) as (Q1 & Q2 & Q3 & Q4 & _). specialize (Q4 Ha). subst g. cbn [used_range fst snd] in *. split.
  - apply (wanted_effective x nm f U Hf s e sel Hs). rewrite Q1. apply (Hm i e (steps_range _ _ _ _ So)). split; assumption.
  - intros r w1 m r' w2 _ _ _ _ _ _ G2. unfold exec_values. destruct (converts_total o x h m Hh) as (c & m' & Hcv). rewrite Hcv. cbn [rbind].
    destruct (convert_messages_inv _ _ _ _ _ Hcv) as (_ & _ & G & _). unfold aggregate. rewrite G, G2. cbn [rbind]. eauto.
Qed.
Print Assumptions C97_plain.

(** ** C97: accumulations *)
Theorem C97_accumulated : forall o x nm f w a u h, good_world w -> usable_request x nm ->
  aggregated_request x "accumulation" a u -> converts o x h -> works o x -> steps_given x ->
  xt_file o (x_input x) = Some f -> usable_file f -> complete_file nm f -> since_start nm f -> Exists (same_variable x nm) (gf_msgs f) ->
  let start := requested_or (x_tstart x) 0 in let first := first_window start a in (0 <= start)%Z ->
  (forall i last, file_range x nm f i -> last_step x i last ->
     (first <= last)%Z /\ (start < last \/ distinct_ends x nm f)%Z /\
     forall ms, those (wanted_message x nm 0 last) (gf_msgs f) ms ->
       (exists size, uniform ms size) /\ forall t, on_grid first last a t -> message_at ms t /\ (t - a = 0 \/ message_at ms (t - a))%Z) ->
  succeeds o x w.
Proof.
  intros o x nm f w a u h Hw U Ar Hh W Sg Hx Hf [n Hc] Hz Hex start first H0 Hm. pose proof Ar as (P1 & P2 & P3 & P4 & P5 & P6).
  destruct (execute_total o x nm f w n Hw U Hx Hf Hc W Sg ltac:(eauto) P1 Hex) as (v & s' & H); [|exact (total_succeeds _ _ _ _ _ H)].
  intros i t s e g sel So St Hr Hs. destruct (C34_partial _ _ _ _ _ _ Hr) as (Q1 & Q2 & Q3 & _ & Q5). destruct (Q5 P2) as (a' & Ea & Hg & He & Hse). clear Q5. assert (a' = a) by congruence. subst a'.
  destruct g as [g|]; [|congruence]. pose proof (asked_aggr _ _ _ _ _ _ _ _ _ Ar Hr) as Eg. cbn [used_range fst snd] in *. fold start in Q1, Eg.
  assert (Fi : (0 < first)%Z) by (unfold first, first_window; destruct (Z.eqb_spec start 0); lia).
  destruct (Hm i e (steps_range _ _ _ _ So)) as (Hl & Hd & Hms); [rewrite He; split; assumption|].
  assert (E0 : (0 < e)%Z) by lia.
  assert (Sle : (start <= e)%Z) by (unfold first, first_window in Hl; destruct (Z.eqb_spec start 0); lia).
  assert (S0 : (0 <= s)%Z) by (rewrite Hse, Q1; destruct (i_step i =? 0)%Z; lia).
  assert (Sne : (s = 0 \/ s <> e)%Z).
  { rewrite Q1 in Hse. destruct (Z.eqb_spec (i_step i) 0) as [Es|Es]; [|lia]. destruct Hd as [Hd|Hd]; [lia|]. elim (spacing_nonzero x nm f i U Hz Hd So Es). }
  assert (Hs0 : exists sel0, select_cmd x 0 e = Ok sel0) by (unfold select_cmd; destruct U as (-> & _); eauto). destruct Hs0 as (sel0 & Hs0).
  split.
  - apply (since_effective x nm f U Hf s e sel Hs S0 E0 Sne). pose proof (those_exists x nm f 0 e sel0 U Hf Hs0) as T. destruct (Hms _ T) as [_ Hg'].
    destruct (Hg' first) as [(m & Hm1 & _) _]; [exists 0%Z; lia|]. destruct T as (rest & Pm & Fa & _). rewrite Forall_forall in Fa. apply Exists_exists. exists m. split; [|exact (Fa _ Hm1)].
    apply filter_In in Hm1. tauto.
  - intros r w1 m r' w2 Gw Fr R1 R2 R3 Hsel G2.
    destruct (select_since x nm U s e sel f r w1 m r' w2 S0 Gw Hf Fr Hz Hs ltac:(lia) Hsel) as (ms & M1 & M2). rewrite R1, R2, R3 in M2.
    destruct (Hms ms M1) as [[size Hu] Hgrid]. destruct (converts_total o x h m Hh) as (c & m' & Hcv).
    destruct (series_fields _ _ _ _ _ _ _ _ _ _ _ Hu M2 Hh Hcv) as (F0 & F1 & F2 & F3 & F4 & F5).
    destruct (accumulation_from_zero t (i_step i) u a (jtruthy (x_ahalf x)) (x_aforce x) start e false (m_first m') size F1 P6 F2 F3) as (out & _ & _ & _ & _ & D2 & _).
    { intros t' Ht. destruct (Hgrid t' Ht) as [B1 B2]. split; [now apply F4|]. destruct B2 as [B2|B2]; [now left|right; now apply F4]. }
    unfold exec_values. rewrite Hcv. cbn [rbind]. unfold aggregate. rewrite F0. rewrite Eg, D2. cbn [rbind]. eauto.
Qed.
Print Assumptions C97_accumulated.

(** ** C97: averages and instantaneous values *)
(** the message at the last step is there, on its own, and begins in the window *)
Definition reaches (x : ctx) (nm : string) (f : gfile) (a : Z) : Prop :=
  let start := requested_or (x_tstart x) 0 in
  forall i last, file_range x nm f i -> last_step x i last ->
    Exists (fun m => wanted_message x nm start last m /\ has_int m "endStep" last) (gf_msgs f) /\
    forall from ms, (from = start \/ from = Z.max 0 (start - a)) -> those (wanted_message x nm from last) (gf_msgs f) ms -> exists size, uniform ms size.
Lemma wanted_earlier x nm s s' e m : (s' <= s)%Z -> (s <= e)%Z -> wanted_message x nm s e m -> wanted_message x nm s' e m.
Proof.
  intros L Le (A & B & C & D & E & a & b & F & G & H). do 5 (split; [assumption|]). exists a, b. split; [exact F|]. split; [exact G|].
  unfold in_window in *. destruct (Z.eqb_spec s e), (Z.eqb_spec s' e); lia.
Qed.
Lemma reaching_last o x nm f w a u h ty : good_world w -> usable_request x nm -> aggregated_request x ty a u -> converts o x h -> works o x -> steps_given x ->
  xt_file o (x_input x) = Some f -> usable_file f -> complete_file nm f -> Exists (same_variable x nm) (gf_msgs f) ->
  (0 <= requested_or (x_tstart x) 0)%Z -> (forall i last, file_range x nm f i -> last_step x i last -> (requested_or (x_tstart x) 0 <= last)%Z) -> reaches x nm f a ->
  (forall m, In m (gf_msgs f) -> same_variable x nm m -> ~ has_text m "stepType" "accum") ->
  (forall t i values n e, file_range x nm f i -> last_step x i e -> t <> "accum" -> values <> [] -> one_per_step values -> same_size values n -> available values e ->
     exists out, do_manipulation (aggr_init t (i_step i) u a ty (jtruthy (x_ahalf x)) (x_aforce x) (requested_or (x_tstart x) 0) e false) values = Ok out) ->
  succeeds o x w.
Proof.
  intros Hw U Ar Hh W Sg Hx Hf [n Hc] Hex H0 Hle Hre Hty Hman. pose proof Ar as (P1 & P2 & P3 & P4 & P5 & P6). set (start := requested_or (x_tstart x) 0) in *.
  destruct (execute_total o x nm f w n Hw U Hx Hf Hc W Sg ltac:(eauto) P1 Hex) as (v & s' & H); [|exact (total_succeeds _ _ _ _ _ H)].
  intros i t s e g sel So (m0 & T1 & T2 & T3) Hr Hs. destruct (C34_partial _ _ _ _ _ _ Hr) as (Q1 & Q2 & Q3 & _ & Q5). destruct (Q5 P2) as (a' & Ea & Hg & He & Hse). clear Q5. assert (a' = a) by congruence. subst a'.
  destruct g as [g|]; [|congruence]. pose proof (asked_aggr _ _ _ _ _ _ _ _ _ Ar Hr) as Eg. cbn [used_range fst snd] in *. fold start in Q1, Eg. rewrite Q1 in Hse.
  assert (La : last_step x i e) by (rewrite He; split; assumption). pose proof (steps_range _ _ _ _ So) as Fr0.
  destruct (Hre i e Fr0 La) as [Hl Hu]. fold start in Hl, Hu.
  assert (Ss : (s = start \/ s = Z.max 0 (start - a))%Z) by (destruct (i_step i =? 0)%Z; auto). assert (Sle : (s <= start)%Z) by lia.
  pose proof (Hle i e Fr0 La) as Le. apply Exists_exists in Hl as (ml & L1 & L2 & L3). pose proof (wanted_earlier _ _ _ _ _ _ Sle Le L2) as L2'.
  assert (Ew : Exists (wanted_message x nm s e) (gf_msgs f)) by (apply Exists_exists; eauto).
  split; [exact (wanted_effective x nm f U Hf s e sel Hs Ew)|]. intros r w1 m r' w2 Gw Fr R1 R2 R3 Hsel G2.
  destruct (select_wanted x nm U s e sel f r w1 m r' w2 Gw Hf Fr Hs Ew Hsel) as (ms & M1 & M2). rewrite R1, R2, R3 in M2.
  destruct (Hu s ms Ss M1) as (size & Hun). destruct (converts_total o x h m Hh) as (c & m' & Hcv).
  destruct (series_fields _ _ _ _ _ _ _ _ _ _ _ Hun M2 Hh Hcv) as (F0 & F1 & F2 & F3 & F4 & F5).
  destruct (Hman t i (m_first m') size e Fr0 La) as (out & D2); [|exact F1|exact F2|exact F3| |].
  - intros ->. exact (Hty m0 T1 T2 T3).
  - apply F4. exists ml. split; [|exact L3]. destruct M1 as (rest & Pm & _ & Nr). apply (Permutation_in _ (Permutation_sym Pm)) in L1. apply in_app_or in L1 as [L1|L1]; [exact L1|].
    rewrite Forall_forall in Nr. elim (Nr _ L1 L2').
  - unfold exec_values. rewrite Hcv. cbn [rbind]. unfold aggregate. rewrite F0. rewrite Eg, D2. cbn [rbind]. eauto.
Qed.
Lemma reaching o x nm f w a u h ty : good_world w -> usable_request x nm -> aggregated_request x ty a u -> converts o x h -> works o x -> steps_given x ->
  xt_file o (x_input x) = Some f -> usable_file f -> complete_file nm f -> Exists (same_variable x nm) (gf_msgs f) ->
  (0 <= requested_or (x_tstart x) 0)%Z -> (forall i last, file_range x nm f i -> last_step x i last -> (requested_or (x_tstart x) 0 <= last)%Z) -> reaches x nm f a ->
  (forall m, In m (gf_msgs f) -> same_variable x nm m -> ~ has_text m "stepType" "accum") ->
  (forall t i values n e, t <> "accum" -> values <> [] -> one_per_step values -> same_size values n -> available values e ->
     exists out, do_manipulation (aggr_init t i u a ty (jtruthy (x_ahalf x)) (x_aforce x) (requested_or (x_tstart x) 0) e false) values = Ok out) ->
  succeeds o x w.
Proof.
  intros Hw U Ar Hh W Sg Hx Hf Hc Hex H0 Hle Hre Hty Hman. apply (reaching_last o x nm f w a u h ty); try assumption.
  intros t i values n e _ _ Ht Hv O S A. exact (Hman t (i_step i) values n e Ht Hv O S A).
Qed.
Theorem C97_average : forall o x nm f w a u h, good_world w -> usable_request x nm ->
  aggregated_request x "average" a u -> jtruthy (x_ahalf x) = false -> converts o x h -> works o x -> steps_given x ->
  xt_file o (x_input x) = Some f -> usable_file f -> complete_file nm f -> Exists (same_variable x nm) (gf_msgs f) ->
  (forall m, In m (gf_msgs f) -> same_variable x nm m -> ~ has_text m "stepType" "accum") ->
  (0 < requested_or (x_tstart x) 0)%Z -> (forall i last, file_range x nm f i -> last_step x i last -> (requested_or (x_tstart x) 0 <= last)%Z) -> reaches x nm f a ->
  succeeds o x w.
Proof.
  intros o x nm f w a u h Hw U Ar Hha Hh W Sg Hx Hf Hc Hex Hty H0 Hle Hre. apply (reaching o x nm f w a u h "average"); try assumption; [lia|].
  intros t i values n e Ht Hv O S A. rewrite Hha. destruct Ar as (_ & _ & _ & _ & _ & P6).
  apply (C07_average_succeeds t i u a (x_aforce x) (requested_or (x_tstart x) 0) e values n); [exact P6|lia|exact Ht|exact Hv|exact O|exact S|]. exists e. split; [exact A|lia].
Qed.
Print Assumptions C97_average.
Theorem C97_instantaneous : forall o x nm f w a u h, good_world w -> usable_request x nm ->
  aggregated_request x "instantaneous" a u -> converts o x h -> works o x -> steps_given x ->
  xt_file o (x_input x) = Some f -> usable_file f -> complete_file nm f -> Exists (same_variable x nm) (gf_msgs f) ->
  (forall m, In m (gf_msgs f) -> same_variable x nm m -> ~ has_text m "stepType" "accum") ->
  (0 <= requested_or (x_tstart x) 0)%Z -> (forall i last, file_range x nm f i -> last_step x i last -> (requested_or (x_tstart x) 0 <= last)%Z) -> reaches x nm f a ->
  succeeds o x w.
Proof.
  intros o x nm f w a u h Hw U Ar Hh W Sg Hx Hf Hc Hex Hty H0 Hle Hre. apply (reaching o x nm f w a u h "instantaneous"); try assumption.
  intros t i values n e Ht Hv O S A. destruct Ar as (_ & _ & _ & _ & _ & P6).
  apply (C12_instantaneous_succeeds t i u a (jtruthy (x_ahalf x)) (x_aforce x) (requested_or (x_tstart x) 0) e false values n); [exact P6|exact Ht|exact Hv|exact O|exact S|]. exists e. split; [exact A|lia].
Qed.
Print Assumptions C97_instantaneous.

(** ** Cases that meet the hypotheses *)
Lemma those_whole {A} (P : A -> Prop) l ms : Forall P l -> those P l ms -> Permutation ms l.
Proof.
  intros F (rest & Pm & _ & N). destruct rest as [|r rest]; [now rewrite app_nil_r in Pm|]. exfalso. inversion N as [|? ? N1 _]; subst. apply N1.
  rewrite Forall_forall in F. apply F. apply (Permutation_in _ Pm), in_or_app. right. now left.
Qed.
Lemma those_tail {A} (P : A -> Prop) a l ms : ~ P a -> Forall P l -> those P (a :: l) ms -> Permutation ms l.
Proof.
  intros Na F (rest & Pm & Fm & N). assert (Hin : In a rest).
  { assert (H : In a (ms ++ rest)) by (apply (Permutation_in _ (Permutation_sym Pm)); now left). apply in_app_or in H as [H|H]; [|exact H]. rewrite Forall_forall in Fm. elim Na. now apply Fm. }
  apply in_split in Hin as (r1 & r2 & ->). rewrite app_assoc in Pm. apply Permutation_sym, Permutation_cons_app_inv in Pm. rewrite <- app_assoc in Pm.
  apply (those_whole P l ms F). exists (r1 ++ r2)%list. split; [now apply Permutation_sym|]. split; [exact Fm|]. apply Forall_app in N as [N1 N2]. apply Forall_app. inversion N2; auto.
Qed.
Lemma Forall2_perm {A B} (R : A -> B -> Prop) l l' : Permutation l l' -> forall m, Forall2 R l m -> exists m', Permutation m m' /\ Forall2 R l' m'.
Proof.
  induction 1 as [|a l l' P IH|a b l|l l1 l2 P1 IH1 P2 IH2]; intros m F.
  - inversion F; subst. exists []. auto.
  - inversion F as [|? y ? m0 Hy F0]; subst. destruct (IH _ F0) as (m' & Q & G). exists (y :: m'). auto.
  - inversion F as [|? y ? m0 Hy F0]; subst. inversion F0 as [|? z ? m1 Hz F1]; subst. exists (z :: y :: m1). split; [constructor|]. auto.
  - destruct (IH1 _ F) as (m1 & Q1 & G1). destruct (IH2 _ G1) as (m2 & Q2 & G2). exists m2. split; [now transitivity m1|exact G2].
Qed.
Lemma uniform_perm ms ms' size : Permutation ms ms' -> uniform ms size -> uniform ms' size.
Proof.
  intros P ((n & A) & (es & B & N) & C). split; [exists n; exact (Permutation_Forall P A)|]. split; [|exact (Permutation_Forall P C)].
  destruct (Forall2_perm _ _ _ P _ B) as (es' & Q & B'). exists es'. split; [exact B'|exact (Permutation_NoDup Q N)].
Qed.
Lemma message_perm ms ms' t : Permutation ms ms' -> message_at ms t -> message_at ms' t.
Proof. intros P (m & A & B). exists m. split; [exact (Permutation_in _ P A)|exact B]. Qed.
Lemma ex_complete nj s e v : complete_message (ex_msg "2t" s e nj 0 0 v).
Proof.
  split; [repeat (apply Forall_cons; [eexists; reflexivity|]); apply Forall_nil|]. split; [repeat (apply Forall_cons; [eexists; reflexivity|]); apply Forall_nil|].
  split; [exists 0%Z; split; [reflexivity|intro H; now elim H]|]. split; [eexists; reflexivity|]. split; [eexists; reflexivity|]. split; [right; eexists; reflexivity|].
  exists 2024%Z, 2%Z, 29%Z, 0%Z, 0%Z. split; [reflexivity|]. split; [|split; [reflexivity|right; auto]].
  split; [lia|]. split; [lia|]. exists 29%Z. split; [|lia]. right. left. split; [reflexivity|]. left. split; [|reflexivity]. split; [exists 506%Z; reflexivity|]. left. intros [k Hk]. lia.
Qed.
Lemma ex_works f fmt t1 t2 b a ty : fmt = "pcraster" \/ fmt = "netcdf" -> works (ex_ext f) (ex_x fmt t1 t2 b a ty).
Proof. intros H. split; [reflexivity|]. split; [intros; eexists; reflexivity|]. destruct H as [-> | ->]; [left|right]; auto. Qed.
Lemma ex_last fmt t1 t2 b a ty i last : t2 <> 0%Z -> last_step (ex_x fmt t1 (JNum t2) b a ty) i last -> last = t2.
Proof. intros N [H _]. apply H. cbn. congruence. Qed.

Example C97_nonvacuous :
  (* no aggregation, NetCDF *)
  succeeds (ex_ext (Some ex_uni)) (ex_x "netcdf" (JNum 0) (JNum 12) false JNull "") world0 /\
  (* amounts since the start, over 6 hours from 6 to 18 *)
  succeeds (ex_ext (Some ex_rain)) (ex_asked_x 12 18 "accumulation") world0 /\
  (* averages and instantaneous values *)
  succeeds (ex_ext (Some ex_uni)) (ex_asked_x 6 12 "average") world0 /\
  succeeds (ex_ext (Some ex_uni)) (ex_asked_x 6 12 "instantaneous") world0.
Proof.
  assert (Cu : complete_file "2t" ex_uni) by (exists 2%Z; all_messages ltac:(intros; split; [apply ex_complete|reflexivity])).
  assert (Cr : complete_file "2t" ex_rain) by (exists 2%Z; all_messages ltac:(intros; split; [apply ex_complete|reflexivity])).
  assert (G0 : good_world world0) by (split; constructor).
  assert (Uu : usable_file ex_uni) by file_ok. assert (Ur : usable_file ex_rain) by file_ok.
  assert (Na : forall x m, In m (gf_msgs ex_uni) -> same_variable x "2t" m -> ~ has_text m "stepType" "accum").
  { intros x m Hm _. cbn [gf_msgs ex_uni In] in Hm. repeat (destruct Hm as [<-|Hm]; [discriminate|]). destruct Hm. }
  assert (Re : forall ty, reaches (ex_asked_x 6 12 ty) "2t" ex_uni 6).
  { intros ty i last _ La. apply ex_last in La; [|discriminate]. subst last. split; [right; right; left; split; [ex_wanted|reflexivity]|]. intros from ms Hfrom T. exists 2%nat.
    destruct Hfrom as [-> | ->].
    - assert (P : Permutation ms (List.tl (gf_msgs ex_uni))).
      { apply (those_tail (wanted_message (ex_asked_x 6 12 ty) "2t" 6 12) (List.hd (ex_msg "2t" 0 0 2 0 0 []) (gf_msgs ex_uni))); [|all_messages ex_wanted|exact T].
        intros (_ & _ & _ & _ & _ & a & b & A & _ & B). cbn in A. injection A as <-. cbn in B. lia. }
      apply (uniform_perm _ _ _ (Permutation_sym P)). cbn [List.tl gf_msgs ex_uni]. split; [exists 2%Z; all_messages ltac:(reflexivity)|]. split; [|all_messages ltac:(reflexivity)].
      exists [6; 12]%Z. split; [repeat (constructor; [reflexivity|]); constructor|]. repeat constructor; cbn; intuition discriminate.
    - apply (uniform_perm (gf_msgs ex_uni)); [|apply ex_uniform; now right]. apply Permutation_sym.
      apply (those_whole (wanted_message (ex_asked_x 6 12 ty) "2t" 0 12)); [all_messages ex_wanted|exact T]. }
  split; [|split; [|split]].
  - assert (Us : usable_request (ex_x "netcdf" (JNum 0) (JNum 12) false JNull "") "2t") by exact (ex_usable (JNum 0) (JNum 12)).
    apply (C97_plain (ex_ext (Some ex_uni)) (ex_x "netcdf" (JNum 0) (JNum 12) false JNull "") "2t" ex_uni world0 (fun v => v) G0 Us); [reflexivity|reflexivity|left; split; [reflexivity|auto]|apply ex_works; now right|split; right; eexists; reflexivity|reflexivity|exact Uu|exact Cu| |].
    + left. split; [reflexivity|now left].
    + intros i last _ La. apply ex_last in La; [|discriminate]. subst last. left. ex_wanted.
  - apply (C97_accumulated (ex_ext (Some ex_rain)) (ex_asked_x 12 18 "accumulation") "2t" ex_rain world0 6 24 (fun v => v) G0 (ex_asked_usable 12 18 "accumulation")); [do 5 (split; [reflexivity|]); lia|left; split; [reflexivity|auto]|apply ex_works; now left|split; right; eexists; reflexivity|reflexivity|exact Ur|exact Cr| | |discriminate|].
    + all_messages ltac:(intros ? ? ?; split; [reflexivity|]; eexists; split; [reflexivity|lia]).
    + left. split; [reflexivity|now left].
    + intros i last _ La. apply ex_last in La; [|discriminate]. subst last. change (requested_or (x_tstart (ex_asked_x 12 18 "accumulation")) 0) with 12%Z. change (first_window 12 6) with 12%Z.
      split; [lia|]. split; [left; lia|]. intros ms T.
      assert (P : Permutation (gf_msgs ex_rain) ms) by (apply Permutation_sym, (those_whole (wanted_message (ex_asked_x 12 18 "accumulation") "2t" 0 18)); [all_messages ex_wanted|exact T]).
      split; [exists 2%nat; apply (uniform_perm _ _ _ P), ex_uniform; now left|]. intros t (k & Hk & -> & Hl). assert (Hc : (k = 0 \/ k = 1)%Z) by lia.
      destruct Hc as [-> | ->]; (split; [|right]); apply (message_perm _ _ _ P);
        [exists (ex_msg "2t" 0 12 2 0 0 [nint 5; nint 6])|exists (ex_msg "2t" 0 6 2 0 0 [nint 3; nint 4])|exists (ex_msg "2t" 0 18 2 0 0 [nint 5; nint 9])|exists (ex_msg "2t" 0 12 2 0 0 [nint 5; nint 6])];
        (split; [cbn [gf_msgs ex_rain In]; auto 10|reflexivity]).
  - apply (C97_average (ex_ext (Some ex_uni)) (ex_asked_x 6 12 "average") "2t" ex_uni world0 6 24 (fun v => v) G0 (ex_asked_usable 6 12 "average")); [do 5 (split; [reflexivity|]); lia|reflexivity|left; split; [reflexivity|auto]|apply ex_works; now left|split; right; eexists; reflexivity|reflexivity|exact Uu|exact Cu| |apply Na|reflexivity| |apply Re].
    + left. split; [reflexivity|now left].
    + intros i last _ La. apply ex_last in La; [|discriminate]. subst last. discriminate.
  - apply (C97_instantaneous (ex_ext (Some ex_uni)) (ex_asked_x 6 12 "instantaneous") "2t" ex_uni world0 6 24 (fun v => v) G0 (ex_asked_usable 6 12 "instantaneous")); [do 5 (split; [reflexivity|]); lia|left; split; [reflexivity|auto]|apply ex_works; now left|split; right; eexists; reflexivity|reflexivity|exact Uu|exact Cu| |apply Na|discriminate| |apply Re].
    + left. split; [reflexivity|now left].
    + intros i last _ La. apply ex_last in La; [|discriminate]. subst last. discriminate.
Qed.
