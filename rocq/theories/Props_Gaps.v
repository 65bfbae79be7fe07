(** * Properties C94 and C97 for files with missing steps: accumulated maps when
    messages are missing at the ends of windows, from the messages of the file to
    the fields written. *)
From Verif Require Import Base Num PyStr Strings Config Context Spec_Context Aggregator Converter Reader Spec_Reader Controller Spec_Controller Spec_Flow Spec_Aggregation Spec_Aggregation2 Spec_Convert Spec_Series Spec_Total
  Base_P Context_P2 Reader_P Reader_P2 Reader_P3 Reader_P4 Controller_P2 Controller_P6 Manip_P Flow_P Series_P Total_P
  Props_Context Props_Context2 Props_Reader Props_Reader2 Props_Controller Props_Flow Props_Aggregation Props_Aggregation2 Props_Series Props_Total.
From Coq Require Import Permutation Sorted.
Local Open Scope string_scope.

(** ** vocabulary *)
(** no message ends at [t]; the nearest ends around it are [lo] and [hi] *)
Definition hole (ms : list gmsg) (lo t hi : Z) : Prop :=
  (lo < t < hi)%Z /\ message_at ms lo /\ message_at ms hi /\ forall u, message_at ms u -> (u <= lo \/ hi <= u)%Z.
(** amount of cell [j] at step [t]: that of the message, or on the straight line
    between the nearest ones *)
Definition amount (h : num -> num) (ms : list gmsg) (t : Z) (j : nat) (q : Qc) : Prop :=
  datum h ms t j q \/
  exists lo hi ql qh, hole ms lo t hi /\ datum h ms lo j ql /\ datum h ms hi j qh /\ q = (ql + (qh - ql) * (ZQ (t - lo) / ZQ (hi - lo)))%Qc.
(** the same, 0 at the start of the forecast if the file has no message there *)
Definition start_amount (h : num -> num) (ms : list gmsg) (t : Z) (j : nat) (q : Qc) : Prop :=
  t = 0%Z /\ ~ message_at ms 0 /\ q = 0%Qc \/ (t <> 0%Z \/ message_at ms 0) /\ amount h ms t j q.
(** at each end of a window without message, more messages end later than ends of
    windows without message come before it *)
Definition more_later (ms : list gmsg) (first last a : Z) : Prop :=
  forall t l, on_grid first last a t -> ~ message_at ms t -> NoDup l ->
    (forall u, In u l -> on_grid (first - a) last a u /\ (u < t)%Z /\ ~ message_at ms u) ->
    exists later, NoDup later /\ (forall u, In u later -> message_at ms u /\ (t < u)%Z) /\ (List.length l < List.length later)%nat.
(** the messages determine every window *)
Definition covers (ms : list gmsg) (first last a : Z) : Prop :=
  (forall t, on_grid first last a t -> message_at ms t \/ exists lo hi, hole ms lo t hi) /\
  more_later ms first last a /\ (message_at ms (first - a)%Z \/ first = a).

Section Messages.
  Variables (h : num -> num) (ms : list gmsg) (values : fields).
  Hypothesis Hav : forall t, available values t <-> message_at ms t.
  Hypothesis Hda : forall t j q, datum h ms t j q -> exists a, has_field values t a /\ cell a j q.

  Lemma hole_gap lo t hi : hole ms lo t hi -> gap values lo t hi.
  Proof using Hav. intros (A & B & C & D). split; [exact A|]. split; [now apply Hav|]. split; [now apply Hav|]. intros u Hu. apply D. now apply Hav. Qed.
  Lemma amount_series t j q : amount h ms t j q -> series_value values t j q.
  Proof using Hav Hda.
    intros [H|(lo & hi & ql & qh & G & L & R & ->)].
    - left. exact (Hda _ _ _ H).
    - right. destruct (Hda _ _ _ L) as (cl & L1 & L2). destruct (Hda _ _ _ R) as (ch & R1 & R2). exists lo, hi, cl, ch, ql, qh. split; [now apply hole_gap|].
      do 4 (split; [assumption|]). reflexivity.
  Qed.
  Lemma start_accum t j q : start_amount h ms t j q -> accum_value values t j q.
  Proof using Hav Hda.
    intros [(A & B & C)|(A & B)]; [left; split; [exact A|]; split; [now rewrite Hav|exact C]|right; split; [now rewrite Hav|now apply amount_series]].
  Qed.
  Lemma later_enough first last a : more_later ms first last a -> enough_later values first last a.
  Proof using Hav.
    intros H t l G N D L. destruct (H t l G) as (later & X & Y & Z); [now rewrite <- Hav|exact D| |].
    - intros u Hu. destruct (L u Hu) as (P & Q & R). now rewrite <- Hav.
    - exists later. split; [exact X|]. split; [|exact Z]. intros u Hu. destruct (Y u Hu). now rewrite Hav.
  Qed.
  Lemma covers_gaps first last a : covers ms first last a ->
    (forall t, on_grid first last a t -> available values t \/ exists lo hi, gap values lo t hi) /\ enough_later values first last a /\ (available values (first - a)%Z \/ first = a).
  Proof using Hav.
    intros (A & B & C). split; [|split; [now apply later_enough|rewrite Hav; exact C]]. intros t Ht. rewrite Hav.
    destruct (A t Ht) as [H|(lo & hi & H)]; [now left|right; exists lo, hi; now apply hole_gap].
  Qed.
End Messages.

(** C94 with missing steps: the windows, their order and their numbers are those of
    the complete file; the amounts at steps without message lie on the straight
    line between the nearest messages *)
Theorem C94_gaps : forall o x nm f w v s' a u h, good_world w -> usable_request x nm ->
  aggregated_request x "accumulation" a u -> x_aforce x = false -> converts o x h ->
  xt_file o (x_input x) = Some f -> usable_file f -> since_start nm f -> (0 <= requested_or (x_tstart x) 0)%Z ->
  execute o x true (cst0 w) = (Ok v, s') ->
  exists i last, file_range x nm f i /\ last_step x i last /\ ((0 < last)%Z ->
   exists ms, those (wanted_message x nm 0 last) (gf_msgs f) ms /\
    forall size, uniform ms size ->
     let first := first_window (requested_or (x_tstart x) 0) a in
     covers ms first last a ->
     let n := window_count first last a in
     map (fun w => window (wn_step w)) (c_out s') = map (fun k => let t := (first + Z.of_nat k * a)%Z in ((t - a)%Z, t)) (seq 0 n) /\
     map wn_map (c_out s') = map (fun k => ((if jis (x_format x) "pcraster" then 1 else 0) + Z.of_nat k)%Z) (seq 0 n) /\
     Forall (fun w => wn_second w = false /\ xt_map o (wn_grid w) false (wn_field w) = Ok (wn_out w) /\ (exists g0 m0, In m0 ms /\ grid_details g0 m0 = Ok (wn_grid w)) /\
       forall j q p, amount h ms (s_end (wn_step w)) j q -> start_amount h ms (s_start (wn_step w)) j p ->
         cell (wn_field w) j (cut_value x ((q - p) * ZQ u / ZQ a)%Qc)) (c_out s')).
Proof.
  intros o x nm f w [[vals m'] change] s' a u h Hw U (P1 & P2 & P3 & P4 & P5 & P6) Hforce Hh Hx Hf Hz H0 H.
  destruct (execute_selected _ _ _ _ _ _ _ _ _ Hw U Hx Hf P1 H) as (i & t & s & e & g & m & s1 & sel & r & w1 & r' & w2 & A1 & _ & A2 & A3 & A4 & A5 & A6 & A7 & A8 & A9 & A10 & A11 & A12).
  destruct (C34_partial _ _ _ _ _ _ A2) as (Q1 & Q2 & Q3 & _ & Q5). destruct (Q5 P2) as (a' & Ea & Hg & He & Hs). clear Q5. assert (a' = a) by congruence. subst a'.
  destruct g as [g|]; [|congruence]. cbn [used_range fst snd] in *. exists i, e. split; [exact A1|]. split; [rewrite He; split; assumption|]. intro Hl.
  assert (Eg : exists inp st hf, g = aggr_init st inp u a "accumulation" hf (x_aforce x) (requested_or (x_tstart x) 0) e false).
  { unfold choose_range in A2. apply rbind_ok in A2 as [s0 [_ A2]]. apply rbind_ok in A2 as [e0 [_ A2]]. rewrite P2 in A2. apply rbind_ok in A2 as [g' [Hn A2]].
    unfold new_aggr in Hn. rewrite P5, P4 in Hn. cbn [rbind] in Hn. rewrite P3 in Hn. cbn [aggr_name] in Hn. 
    assert (Gg : g' = g) by (destruct (real_start_end g') as [? ?]; congruence). subst g'. assert (Gi : g = aggr_init t (i_step i) u a "accumulation" (jtruthy (x_ahalf x)) (x_aforce x) s0 e0 false) by congruence.
    rewrite Gi in Q1, He. cbn [aggr_init a_start a_end] in Q1, He. rewrite <- Q1, He. eauto. }
  destruct Eg as (inp & st & hf & Eg).
  assert (S0 : (0 <= s)%Z) by (rewrite Hs, Q1; destruct (i_step i =? 0)%Z; lia).
  destruct (select_since x nm U _ _ _ _ _ _ _ _ _ S0 A4 Hf A5 Hz A3 ltac:(lia) A9) as (ms & M1 & M2). rewrite A6, A7, A8 in M2.
  exists ms. split; [exact M1|]. intros size Hu Hgrid. set (first := first_window (requested_or (x_tstart x) 0) a) in *. set (n := window_count first e a).
  assert (G2 : m_grid2 m = None) by (destruct Hu as ([nj Un] & _); destruct M2 as (_ & _ & _ & _ & Ro); destruct (Ro nj Un) as (xs & _ & _ & _ & X4); exact X4).
  destruct (written_fields _ _ _ _ _ _ _ _ _ _ _ _ _ _ M2 G2 A2 A10 A11 A12) as (c & out & C1 & C2 & C3 & C4 & C5 & C6 & C7).
  destruct (series_fields _ _ _ _ _ _ _ _ _ _ _ Hu M2 Hh C1) as (_ & F1 & F2 & F3 & F4 & F5).
  rewrite Eg in C2.
  destruct (covers_gaps ms (m_first m') F4 first e a Hgrid) as (B1 & B2 & B3). rewrite Hforce in C2.
  destruct (C04_gaps_partial st inp u a hf (requested_or (x_tstart x) 0) e false (m_first m') size F1 P6 H0 F2 F3 B1 B2 B3) as (out' & k0 & a0 & rest & _ & D2 & D3 & D4 & D5).
  assert (out' = out) by congruence. subst out'. clear D2.
  destruct (in_order x a first e (s_res k0) (s_level k0) (fun t => t - a)%Z vals out (c_out s') P6 C3 C4 D3 D4 C5) as (Ln & O1 & O2). fold n in Ln, O1.
  split; [exact O1|]. split; [rewrite <- Ln; exact C6|].
  rewrite Forall_forall in C7. apply Forall_forall. intros wm Hwm. destruct (C7 _ Hwm) as (W1 & W2 & W3). split; [exact W1|]. split; [exact W2|]. split; [exact W3|].
  destruct (O2 _ Hwm) as (fld & Hb & Sz & Hcut). intros j q p Hq Hp. apply Hcut.
  exact (D5 _ _ Hb j q p (amount_series h ms _ F4 F5 _ _ _ Hq) (start_accum h ms _ F4 F5 _ _ _ Hp)).
Qed.
Print Assumptions C94_gaps.

(** such a command succeeds *)
Theorem C97_gaps : forall o x nm f w a u h, good_world w -> usable_request x nm ->
  aggregated_request x "accumulation" a u -> x_aforce x = false -> converts o x h -> works o x -> steps_given x ->
  xt_file o (x_input x) = Some f -> usable_file f -> complete_file nm f -> since_start nm f -> Exists (same_variable x nm) (gf_msgs f) ->
  let start := requested_or (x_tstart x) 0 in let first := first_window start a in (0 <= start)%Z ->
  (forall i last, file_range x nm f i -> last_step x i last ->
     (first <= last)%Z /\ (start < last \/ distinct_ends x nm f)%Z /\
     forall ms, those (wanted_message x nm 0 last) (gf_msgs f) ms ->
       (exists size, uniform ms size) /\ covers ms first last a) ->
  succeeds o x w.
Proof.
  intros o x nm f w a u h Hw U Ar Hforce Hh W Sg Hx Hf [n Hc] Hz Hex start first H0 Hm. pose proof Ar as (P1 & P2 & P3 & P4 & P5 & P6).
  destruct (execute_total o x nm f w n Hw U Hx Hf Hc W Sg ltac:(eauto) P1 Hex) as (v & s' & H); [|exact (total_succeeds _ _ _ _ _ H)].
  intros i t s e g sel So St Hr Hs. destruct (C34_partial _ _ _ _ _ _ Hr) as (Q1 & Q2 & Q3 & _ & Q5). destruct (Q5 P2) as (a' & Ea & Hg & He & Hse). clear Q5. assert (a' = a) by congruence. subst a'.
  destruct g as [g|]; [|congruence]. pose proof (asked_aggr _ _ _ _ _ _ _ _ _ Ar Hr) as Eg. cbn [used_range fst snd] in *. fold start in Q1, Eg.
  assert (Fi : (0 < first)%Z) by (unfold first, first_window; destruct (Z.eqb_spec start 0); lia).
  destruct (Hm i e (steps_range _ _ _ _ So)) as (Hl & Hd & Hms); [rewrite He; split; assumption|].
  assert (E0 : (0 < e)%Z) by lia.
  assert (Sle : (start <= e)%Z) by (unfold first, first_window in Hl; destruct (Z.eqb_spec start 0); lia).
  assert (S0 : (0 <= s)%Z) by (rewrite Hse, Q1; destruct (i_step i =? 0)%Z; lia).
  assert (Sne : (s = 0 \/ s <> e)%Z).
  { rewrite Q1 in Hse. destruct (Z.eqb_spec (i_step i) 0) as [Es|Es]; [|lia]. destruct Hd as [Hd|Hd]; [lia|]. elim (spacing_nonzero x nm f i U Hz Hd So Es). }
  assert (Hs0 : exists sel0, select_cmd x 0 e = Ok sel0) by (unfold select_cmd; destruct U as (-> & _); eauto). destruct Hs0 as (sel0 & Hs0).
  split.
  - apply (since_effective x nm f U Hf s e sel Hs S0 E0 Sne). pose proof (those_exists x nm f 0 e sel0 U Hf Hs0) as T. destruct (Hms _ T) as [_ Hg'].
    assert (exists m t0, In m (filter (accepted sel0) (gf_msgs f)) /\ has_int m "endStep" t0) as (m & t0 & Hm1 & _).
    { destruct Hg' as (Hg' & _). destruct (Hg' first) as [(m & Hm1 & Hm2)|(lo & hi & _ & (m & Hm1 & Hm2) & _)]; [exists 0%Z; lia|eauto..]. }
    destruct T as (rest & Pm & Fa & _). rewrite Forall_forall in Fa. apply Exists_exists. exists m. split; [|exact (Fa _ Hm1)].
    apply filter_In in Hm1. tauto.
  - intros r w1 m r' w2 Gw Fr R1 R2 R3 Hsel G2.
    destruct (select_since x nm U s e sel f r w1 m r' w2 S0 Gw Hf Fr Hz Hs ltac:(lia) Hsel) as (ms & M1 & M2). rewrite R1, R2, R3 in M2.
    destruct (Hms ms M1) as [[size Hu] Hgrid]. destruct (converts_total o x h m Hh) as (c & m' & Hcv).
    destruct (series_fields _ _ _ _ _ _ _ _ _ _ _ Hu M2 Hh Hcv) as (F0 & F1 & F2 & F3 & F4 & F5).
    destruct (covers_gaps ms (m_first m') F4 first e a Hgrid) as (B1 & B2 & B3).
    destruct (C04_gaps_partial t (i_step i) u a (jtruthy (x_ahalf x)) start e false (m_first m') size F1 P6 H0 F2 F3 B1 B2 B3) as (out & _ & _ & _ & _ & D2 & _).
    rewrite Hforce in Eg.
    unfold exec_values. rewrite Hcv. cbn [rbind]. unfold aggregate. rewrite F0. rewrite Eg, D2. cbn [rbind]. eauto.
Qed.
Print Assumptions C97_gaps.

(** ** Cases that meet the hypotheses: amounts at the steps 6, 18 and 24 only *)
Definition ex_holes : gfile := mkGfile true
  [ex_msg "2t" 0 6 2 0 0 [nint 3; nint 4]; ex_msg "2t" 0 18 2 0 0 [nint 9; nint 6]; ex_msg "2t" 0 24 2 0 0 [nint 9; nint 8]].
Lemma holes_at t : message_at (gf_msgs ex_holes) t <-> (t = 6 \/ t = 18 \/ t = 24)%Z.
Proof.
  split.
  - intros (m & Hm & Ht). cbn [gf_msgs ex_holes In] in Hm. destruct Hm as [<-|[<-|[<-|[]]]]; vm_compute in Ht; injection Ht as <-; auto.
  - intros [-> |[-> | ->]]; eexists; [split; [now left|reflexivity]|split; [right; now left|reflexivity]|split; [right; right; now left|reflexivity]].
Qed.
Lemma holes_uniform : uniform (gf_msgs ex_holes) 2.
Proof.
  cbn [gf_msgs ex_holes]. split; [exists 2%Z; all_messages ltac:(reflexivity)|]. split; [|all_messages ltac:(reflexivity)]. exists [6; 18; 24]%Z. split; [repeat (constructor; [reflexivity|]); constructor|].
  repeat constructor; cbn; intuition discriminate.
Qed.
Lemma holes_hole : hole (gf_msgs ex_holes) 6 12 18.
Proof. split; [lia|]. split; [apply holes_at; auto|]. split; [apply holes_at; auto|]. intros u Hu. apply holes_at in Hu. lia. Qed.
Lemma covers_perm ms ms' first last a : Permutation ms ms' -> covers ms first last a -> covers ms' first last a.
Proof.
  intros P (A & B & C). assert (I : forall t, message_at ms' t <-> message_at ms t) by (intro t; split; apply message_perm; [apply Permutation_sym|]; exact P).
  split; [|split; [|rewrite I; exact C]].
  - intros t Ht. destruct (A t Ht) as [H|(lo & hi & H1 & H2 & H3 & H4)]; [left; now apply I|right]. exists lo, hi. split; [exact H1|]. split; [now apply I|]. split; [now apply I|]. intros u Hu. apply H4. now apply I.
  - intros t l G N D L. destruct (B t l G) as (later & X & Y & Z); [now rewrite <- I|exact D| |].
    + intros u Hu. destruct (L u Hu) as (R1 & R2 & R3). now rewrite <- I.
    + exists later. split; [exact X|]. split; [|exact Z]. intros u Hu. destruct (Y u Hu). now rewrite I.
Qed.
Lemma holes_covers : covers (gf_msgs ex_holes) 6 24 6.
Proof.
  split; [|split; [|right; reflexivity]].
  - intros t (k & Hk & -> & Hl). assert (Hc : (k = 0 \/ k = 1 \/ k = 2 \/ k = 3)%Z) by lia. destruct Hc as [-> |[-> |[-> | ->]]]; [left; apply holes_at; auto|right; exists 6%Z, 18%Z; exact holes_hole|left; apply holes_at; auto..].
  - intros t l (k & Hk & -> & Hl) N D L. rewrite holes_at in N. assert (Hc : (k = 1)%Z) by lia. subst k. exists [18; 24]%Z. split; [repeat constructor; cbn; intuition discriminate|]. split.
    + intros u Hu. cbn [In] in Hu. split; [apply holes_at; lia|lia].
    + assert (I : incl l [0]%Z). { intros u Hu. destruct (L u Hu) as ((z & Z1 & -> & Z3) & Z4 & Z5). rewrite holes_at in Z5. cbn [In]. lia. }
      pose proof (NoDup_incl_length D I). cbn [List.length] in *. lia.
Qed.
Example C94_gaps_nonvacuous : let o := ex_ext (Some ex_holes) in let x := ex_asked_x 0 24 "accumulation" in let h := fun v : num => v in let ms := gf_msgs ex_holes in
  usable_request x "2t" /\ aggregated_request x "accumulation" 6 24 /\ x_aforce x = false /\ converts o x h /\ usable_file ex_holes /\ since_start "2t" ex_holes /\
  (exists v s', execute o x true (cst0 world0) = (Ok v, s')) /\
  those (wanted_message x "2t" 0 24) ms ms /\ uniform ms 2 /\ covers ms (first_window 0 6) 24 6 /\
  amount h ms 12 0 (ZQ 6) /\ start_amount h ms 0 0 0%Qc /\
  shown o x = (Ok tt, [(1, (0, 6), [Some (12, 1%positive); Some (16, 1%positive)]); (2, (6, 12), [Some (12, 1%positive); Some (4, 1%positive)]);
                       (3, (12, 18), [Some (12, 1%positive); Some (4, 1%positive)]); (4, (18, 24), [Some (0, 1%positive); Some (8, 1%positive)])]%Z).
Proof.
  assert (Sh : shown (ex_ext (Some ex_holes)) (ex_asked_x 0 24 "accumulation") =
    (Ok tt, [(1, (0, 6), [Some (12, 1%positive); Some (16, 1%positive)]); (2, (6, 12), [Some (12, 1%positive); Some (4, 1%positive)]);
             (3, (12, 18), [Some (12, 1%positive); Some (4, 1%positive)]); (4, (18, 24), [Some (0, 1%positive); Some (8, 1%positive)])]%Z)) by (vm_compute; reflexivity).
  cbv zeta. split; [apply ex_asked_usable|]. split; [do 5 (split; [reflexivity|]); lia|]. split; [reflexivity|]. split; [left; split; [reflexivity|auto]|].
  split; [file_ok|]. split; [unfold since_start; cbn [gf_msgs ex_holes]; all_messages ltac:(intros ? ? ?; split; [reflexivity|]; eexists; split; [reflexivity|lia])|].
  split; [exact (shown_ok _ _ _ Sh)|]. split; [apply those_all; cbn [gf_msgs ex_holes]; all_messages ex_wanted|]. split; [exact holes_uniform|].
  split; [exact holes_covers|].
  assert (Ms : forall v m' mv, In m' (gf_msgs ex_holes) -> dget String.eqb (gm_dbl m') "missingValue" = Some mv -> neqb (nint v) (nint 9999) = false -> ~ is_missing mv (nint v)).
  { intros v m' mv Hm' Hd N. assert (mv = nint 9999) by (cbn [gf_msgs ex_holes In] in Hm'; repeat (destruct Hm' as [<-|Hm']; [vm_compute in Hd; vm_compute; congruence|]); destruct Hm').
    subst mv. unfold is_missing. congruence. }
  split; [|split; [|exact Sh]].
  - right. exists 6%Z, 18%Z, (ZQ 3), (ZQ 9). split; [exact holes_hole|]. split; [|split].
    + exists (ex_msg "2t" 0 6 2 0 0 [nint 3; nint 4]), (nint 3). split; [now left|]. do 2 (split; [reflexivity|]). split; [reflexivity|]. intros m' mv A B. now apply (Ms 3%Z m').
    + exists (ex_msg "2t" 0 18 2 0 0 [nint 9; nint 6]), (nint 9). split; [right; now left|]. do 2 (split; [reflexivity|]). split; [reflexivity|]. intros m' mv A B. now apply (Ms 9%Z m').
    + apply Qc_is_canon. vm_compute. reflexivity.
  - left. split; [reflexivity|]. split; [|reflexivity]. rewrite holes_at. lia.
Qed.
Example C97_gaps_nonvacuous : succeeds (ex_ext (Some ex_holes)) (ex_asked_x 0 24 "accumulation") world0.
Proof.
  apply (C97_gaps (ex_ext (Some ex_holes)) (ex_asked_x 0 24 "accumulation") "2t" ex_holes world0 6 24 (fun v => v)); [split; constructor|apply ex_asked_usable|do 5 (split; [reflexivity|]); lia|reflexivity|left; split; [reflexivity|auto]
    |apply ex_works; now left|split; right; eexists; reflexivity|reflexivity|file_ok| | | |discriminate|].
  - exists 2%Z. cbn [gf_msgs ex_holes]. all_messages ltac:(intros; split; [apply ex_complete|reflexivity]).
  - unfold since_start. cbn [gf_msgs ex_holes]. all_messages ltac:(intros ? ? ?; split; [reflexivity|]; eexists; split; [reflexivity|lia]).
  - left. split; [reflexivity|now left].
  - intros i last _ La. apply ex_last in La; [|discriminate]. subst last. change (requested_or (x_tstart (ex_asked_x 0 24 "accumulation")) 0) with 0%Z. change (first_window 0 6) with 6%Z.
    split; [lia|]. split; [left; lia|]. intros ms T.
    assert (P : Permutation (gf_msgs ex_holes) ms) by (apply Permutation_sym, (those_whole (wanted_message (ex_asked_x 0 24 "accumulation") "2t" 0 24)); [cbn [gf_msgs ex_holes]; all_messages ex_wanted|exact T]).
    split; [exists 2%nat; apply (uniform_perm _ _ _ P); exact holes_uniform|]. exact (covers_perm _ _ _ _ _ P holes_covers).
Qed.
