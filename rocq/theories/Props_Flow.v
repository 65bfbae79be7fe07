(** * Property C84: from the messages of the input files to the maps written
    (main/controller.py execute as a whole). Vocabulary: Spec_Flow.v. *)
From Verif Require Import Base Num PyStr Strings Config Context Spec_Context Aggregator Converter Reader Spec_Reader Controller Spec_Controller Spec_Flow
  Base_P Context_P2 Reader_P Reader_P2 Reader_P3 Reader_P4 Controller_P Controller_P2 Controller_P6 Props_Context Props_Reader Props_Controller Flow_P.
From Coq Require Import Permutation Sorted.
Local Open Scope string_scope.

(** a request for fields as they are in the file *)
Definition plain_request (x : ctx) : Prop := jtruthy (x_input2 x) = false /\ x_doAggr x = false /\ x_doConv x = false.
(** the last step of the window *)
Definition last_step (x : ctx) (i : steps_info) (last : Z) : Prop :=
  (x_tend x <> JNum 0 -> last = requested_or (x_tend x) (i_end i)) /\ (x_tend x = JNum 0 -> last = i_end i).

(** Full statement: a plain request writes one map for each matching message,
    and nothing else. *)
Definition C84_full : Prop := forall o x nm f w v s', good_world w -> usable_request x nm -> plain_request x ->
  xt_file o (x_input x) = Some f -> usable_file f -> execute o x true (cst0 w) = (Ok v, s') ->
  exists i last, file_range x nm f i /\ last_step x i last /\
    exists ms xs, those (wanted_message x nm (requested_or (x_tstart x) 0) last) (gf_msgs f) ms /\ Forall2 reads ms xs /\
      Permutation (map (fun w => (wn_id w, wn_field w)) (c_out s')) (map (fun r => (rd_id r, rd_field r)) xs).

Lemma those_length {A} (P : A -> Prop) l ms : those P l ms -> Forall P l -> List.length ms = List.length l.
Proof.
  intros (rest & Hp & _ & Hn) Hl. assert (rest = []).
  { destruct rest as [|a rest]; [reflexivity|]. exfalso. inversion Hn as [|? ? Ha _]; subst. apply Ha. rewrite Forall_forall in Hl. apply Hl.
    apply (Permutation_in _ Hp), in_or_app. right. now left. }
  subst rest. rewrite app_nil_r in Hp. now apply Permutation_length.
Qed.
Lemma those_none {A} (P : A -> Prop) l ms : those P l ms -> Forall (fun a => ~ P a) l -> ms = [].
Proof.
  intros (rest & Hp & Hy & _) Hl. destruct ms as [|a ms]; [reflexivity|]. exfalso. inversion Hy as [|? ? Ha _]; subst.
  rewrite Forall_forall in Hl. apply (Hl a); [|exact Ha]. apply (Permutation_in _ Hp). now left.
Qed.
Lemma Forall2_len {A B} (P : A -> B -> Prop) l l' : Forall2 P l l' -> List.length l = List.length l'.
Proof. induction 1; cbn; congruence. Qed.

Definition out_of (o : ext) (x : ctx) : res unit * list (Z * Z) :=
  match execute o x true (cst0 world0) with (r, s) => (match r with Ok _ => Ok tt | Raise e => Raise e end, map (fun w => window (wn_step w)) (c_out s)) end.
Lemma out_of_ok o x l : out_of o x = (Ok tt, l) -> exists v s', execute o x true (cst0 world0) = (Ok v, s') /\ map (fun w => window (wn_step w)) (c_out s') = l.
Proof. unfold out_of. destruct (execute o x true (cst0 world0)) as [[v|e] s']; intro H; [|discriminate]. injection H as <-. eauto. Qed.
Lemma ex_usable t1 t2 : usable_request (ex_x "pcraster" t1 t2 false JNull "") "2t".
Proof.
  unfold usable_request. cbn. repeat split; auto. constructor; [|constructor; [|constructor; [|constructor]]]; cbn; intuition discriminate.
Qed.
Ltac file_ok := split; [reflexivity|]; repeat (constructor; [split; eexists; reflexivity|]); constructor.

(** steps 30 to 35 of a file with steps 0, 6 and 12: those three are written *)
Theorem C84_outside_refuted : ~ C84_full.
Proof.
  intro H. pose (o := ex_ext (Some ex_uni)). pose (x := ex_x "pcraster" (JNum 30) (JNum 35) false JNull "").
  assert (T : out_of o x = (Ok tt, [(0, 0); (6, 6); (12, 12)]%Z)) by (vm_compute; reflexivity).
  apply out_of_ok in T as (v & s' & E & T4).
  destruct (H o x "2t" ex_uni world0 v s') as (i & last & _ & [L _] & ms & xs & T1 & T2 & T3).
  - repeat constructor.
  - apply ex_usable.
  - repeat split.
  - reflexivity.
  - file_ok.
  - exact E.
  - cbn in L. rewrite L in T1 by discriminate. apply those_none in T1.
    + subst ms. inversion T2. subst xs. apply Permutation_length in T3. rewrite !map_length in T3. cbn in T3.
      apply (f_equal (@List.length _)) in T4. rewrite map_length, T3 in T4. discriminate.
    + repeat (constructor; [intros (_ & _ & _ & _ & _ & a & b & A & B & Wn); unfold has_int in A, B; cbn in A, B; injection A as <-; injection B as <-; cbn in Wn; lia|]).
      constructor.
Qed.
Print Assumptions C84_outside_refuted.

(** two members at the same step, none requested: one of the two fields is
    lost *)
Definition ex_member (p : Z) (vals : list num) : gmsg :=
  let m := ex_msg "2t" 6 6 2 0 0 vals in mkGmsg (gm_keys m ++ [("perturbationNumber", JNum p)])%list (gm_dbl m) (gm_missing m) (gm_values m) (gm_bitmap m).
Definition ex_ensemble : gfile := mkGfile true [ex_member 1 [nint 1; nint 2]; ex_member 2 [nint 3; nint 4]].
Theorem C84_members_refuted : ~ (forall o x nm f w v s' i last, good_world w -> usable_request x nm -> plain_request x ->
  xt_file o (x_input x) = Some f -> usable_file f -> execute o x true (cst0 w) = (Ok v, s') -> file_range x nm f i -> last_step x i last ->
  Forall (wanted_message x nm (requested_or (x_tstart x) 0) last) (gf_msgs f) ->
  List.length (c_out s') = List.length (gf_msgs f)).
Proof.
  intro H. pose (o := ex_ext (Some ex_ensemble)). pose (x := ex_x "pcraster" (JNum 0) (JNum 12) false JNull "").
  assert (T : out_of o x = (Ok tt, [(6, 6)]%Z)) by (vm_compute; reflexivity).
  apply out_of_ok in T as (v & s' & E & T4).
  assert (G : List.length (c_out s') = 2%nat).
  { apply (H o x "2t" ex_ensemble world0 v s' (mkInfo 6 6 0 (-1) "") 12%Z).
    - repeat constructor.
    - apply ex_usable.
    - repeat split.
    - reflexivity.
    - file_ok.
    - exact E.
    - exists (gf_msgs ex_ensemble), [(6, 6); (6, 6)]%Z. split; [|split].
      + exists []. rewrite app_nil_r. split; [apply Permutation_refl|]. split; [|constructor]. repeat (constructor; [split; [reflexivity|now left]|]). constructor.
      + repeat (constructor; [split; reflexivity|]). constructor.
      + split; (split; [now left|]); repeat (constructor; [cbn; lia|]); constructor.
    - split; [reflexivity|discriminate].
    - repeat (constructor; [split; [exists "2t"; split; [reflexivity|now left]|]; do 4 (split; [now left|]); exists 6%Z, 6%Z; cbn; repeat split; lia|]). constructor. }
  apply (f_equal (@List.length _)) in T4. rewrite map_length, G in T4. discriminate.
Qed.
Print Assumptions C84_members_refuted.

(** ** Proved parts *)
(** 1. Every execution that ends without error: the range is that of the file
    and of the request, the fields come from exactly the wanted messages of the
    first and of the second file, each set from its own; conversion, aggregation
    and writing work on them (C17-C19, C01-C16, C35, C36 say how). *)
Theorem C84_flow : forall o x nm f w b vals m' change s', good_world w -> usable_request x nm ->
  xt_file o (x_input x) = Some f -> usable_file f -> execute o x b (cst0 w) = (Ok (vals, m', change), s') ->
  exists i t s e g m m1 s1,
    file_range x nm f i /\ choose_range x i t = Ok (s, e, g) /\
    (Exists (wanted_message x nm s e) (gf_msgs f) -> read_from x nm s e f (i_step i) (i_step2 i) (i_change i) m1) /\
    (jtruthy (x_input2 x) = false -> m = m1) /\
    (jtruthy (x_input2 x) = true -> exists m2,
       m_first m = m_first m1 /\ m_second m = m_first m2 /\ m_grid m = m_grid m1 /\ m_mv m = m_mv m1 /\
       (exists k, m_grid2 m = Some (m_grid m2, k)) /\
       forall f2, xt_file o (x_input2 x) = Some f2 -> usable_file f2 -> Exists (wanted_message x nm s e) (gf_msgs f2) ->
       read_from x nm s e f2 (-1) (-1) "" m2) /\
    exec_values (xt_numexpr o) x (i_step i) e g m = Ok (vals, m', change) /\
    c_out s1 = [] /\ (b = true -> write_maps o x vals m' change s1 = (Ok tt, s')) /\ (b = false -> s' = s1).
Proof.
  intros o x nm f w b vals m' change s' Hw U Hx Hf H.
  destruct (execute_inv _ _ _ _ _ _ _ _ _ _ Hw U Hx Hf H) as (i & t & s & e & g & m & m1 & s1 & A1 & A2 & A3 & A4 & A5 & A6 & A7 & A8 & A9).
  exists i, t, s, e, g, m, m1, s1. do 4 (split; [assumption|]). split; [|auto]. intro E. destruct (A5 E) as (m2 & -> & R). exists m2. do 4 (split; [reflexivity|]).
  split; [eexists; reflexivity|exact R].
Qed.
Print Assumptions C84_flow.

(** 2. A plain request on one grid, explicitly: if some message matches, exactly
    one map is written per matching message (all different in steps and level),
    numbered without gaps from 1 (PCRaster) or 0 (NetCDF) in the order of the end
    steps; each is the interpolated field of its message, on the grid of the
    matching messages. *)
Lemma numbered_spec l : forall i, map (fun p => (snd (fst p), snd p)) (numbered i l) = l /\
  map (fun p => fst (fst p)) (numbered i l) = map (fun n => (i + Z.of_nat n)%Z) (seq 0 (List.length l)).
Proof.
  induction l as [|[k v] l IH]; intro i; [split; reflexivity|]. cbn [numbered map fst snd List.length seq]. destruct (IH (i + 1)%Z) as [A B].
  rewrite A, B. split; [reflexivity|]. f_equal; [lia|]. rewrite <- seq_shift, map_map. apply map_ext. intro n. lia.
Qed.
Lemma entries_ids step step2 change xs : forall bef, map (fun kv : Aggregator.step * arr => (let k := fst kv in (s_start k, s_end k, s_res k, s_level k), snd kv)) (entries step step2 change bef xs)
  = map (fun r => (rd_id r, rd_field r)) xs.
Proof. induction xs as [|x xs IH]; intro bef; [reflexivity|]. cbn [entries map fst snd s_start s_end s_res s_level]. rewrite IH. reflexivity. Qed.
Lemma sorted_map {A B} (R : B -> B -> Prop) (f : A -> B) l : StronglySorted R (map f l) -> StronglySorted (fun a b => R (f a) (f b)) l.
Proof.
  induction l as [|a l IH]; intro H; [constructor|]. cbn in H. inversion H as [|? ? H1 H2]; subst. constructor; [auto|].
  rewrite Forall_forall in H2. apply Forall_forall. intros b Hb. apply H2. now apply in_map.
Qed.

Theorem C84_plain_partial : forall o x nm f w v s', good_world w -> usable_request x nm -> plain_request x ->
  xt_file o (x_input x) = Some f -> usable_file f -> execute o x true (cst0 w) = (Ok v, s') ->
  exists i last, file_range x nm f i /\ last_step x i last /\
   (Exists (wanted_message x nm (requested_or (x_tstart x) 0) last) (gf_msgs f) ->
    exists ms, those (wanted_message x nm (requested_or (x_tstart x) 0) last) (gf_msgs f) ms /\
     forall n, Forall (fun m => has_int m "Nj" n) ms -> exists xs, Forall2 reads ms xs /\
      (NoDup (map rd_id xs) ->
       Permutation (map (fun w => (wn_id w, wn_field w)) (c_out s')) (map (fun r => (rd_id r, rd_field r)) xs) /\
       map wn_map (c_out s') = map (fun k => ((if jis (x_format x) "pcraster" then 1 else 0) + Z.of_nat k)%Z) (seq 0 (List.length ms)) /\
       StronglySorted (fun a b => (s_end (wn_step a) <= s_end (wn_step b))%Z) (c_out s') /\
       Forall (fun w => wn_second w = false /\ xt_map o (wn_grid w) false (wn_field w) = Ok (wn_out w) /\
                        exists g0 m0, In m0 ms /\ grid_details g0 m0 = Ok (wn_grid w)) (c_out s'))).
Proof.
  intros o x nm f w [[vals m'] change] s' Hw U (P1 & P2 & P3) Hx Hf H.
  destruct (C84_flow _ _ _ _ _ _ _ _ _ _ Hw U Hx Hf H) as (i & t & s & e & g & m & m1 & s1 & A1 & A2 & A3 & A4 & _ & A6 & A7 & A8 & _).
  specialize (A4 P1). subst m1. specialize (A8 eq_refl).
  destruct (C34_partial _ _ _ _ _ _ A2) as (Q1 & Q2 & Q3 & Q4 & _). specialize (Q4 P2). subst g. cbn [used_range fst snd] in Q1, Q2, Q3.
  exists i, e. split; [exact A1|]. split; [split; assumption|]. rewrite <- Q1. intro Hex. destruct (A3 Hex) as (gms & B1 & B2 & B3 & _).
  exists (map snd gms). split; [exact B1|]. intros n Hn.
  assert (Hn' : Forall (fun gm => has_int (snd gm) "Nj" n) gms) by (apply Forall_map in Hn; exact Hn).
  destruct (B3 n Hn') as (xs & X1 & X2 & X3 & X4). exists xs. split; [exact X1|]. intro Hq.
  destruct (C35_single _ _ _ _ _ _ _ _ _ _ _ _ A6 X4 A8) as (_ & (out & D1 & D2) & D3 & ws & D4 & D5 & D6 & D7).
  unfold produced in D1. subst out.
  assert (Em : m' = m).
  { unfold exec_values, convert_messages in A6. rewrite P3 in A6. cbn [rbind] in A6. apply rbind_ok in A6 as [[? ?] [_ A6]]. congruence. }
  subst m'. unfold cut in D2. rewrite P3 in D2. cbn [andb] in D2. rewrite A7 in D4. cbn [app] in D4. rewrite D4. clear D4.
  assert (Hp : Permutation (m_first m) (entries (i_step i) (i_step2 i) (i_change i) [] xs)) by exact (holds_NoDup_length _ _ X2 (entries_NoDup _ _ _ _ _ Hq)).
  set (i0 := if jis (x_format x) "pcraster" then 1%Z else 0%Z) in *. destruct (numbered_spec vals i0) as [N1 N2]. rewrite <- D5 in N1, N2. rewrite map_map in N1, N2. cbn [fst snd] in N1, N2.
  split; [|split; [|split]].
  - rewrite <- (entries_ids (i_step i) (i_step2 i) (i_change i) xs []), <- Hp, <- D2, <- N1, map_map. apply Permutation_refl.
  - etransitivity; [exact N2|]. f_equal. f_equal. rewrite (Permutation_length D2), (Permutation_length Hp), entries_length. symmetry. exact (Forall2_len _ _ _ X1).
  - unfold by_end in D3. rewrite <- N1 in D3. apply sorted_map in D3. exact D3.
  - assert (Z1 : Forall (fun w => wn_second w = false) ws).
    { apply Forall_forall. intros w0 Hw0. apply (in_map wn_second) in Hw0. rewrite D6 in Hw0. exact (repeat_spec _ _ _ Hw0). }
    rewrite Forall_forall in Z1, D7. apply Forall_forall. intros w0 Hw0. specialize (Z1 _ Hw0). destruct (D7 _ Hw0) as (G1 & G2 & _). rewrite Z1 in G1. split; [exact Z1|]. split; [exact G1|].
    destruct B2 as (g0 & m0 & K1 & K2). exists g0, m0. split; [apply in_map_iff; exists (g0, m0); auto|]. rewrite (G2 Z1). exact K2.
Qed.
Print Assumptions C84_plain_partial.

(** the hypotheses are met: two of three messages match *)
Example C84_nonvacuous :
  let x := ex_x "pcraster" (JNum 6) (JNum 12) false JNull "" in
  out_of (ex_ext (Some ex_uni)) x = (Ok tt, [(6, 6); (12, 12)]%Z) /\ usable_request x "2t" /\ plain_request x /\ usable_file ex_uni /\
  Exists (wanted_message x "2t" 6 12) (gf_msgs ex_uni) /\
  (* a second file *)
  let x2 := mkCtx JNull (JStr "in.grb") (JNum 12) (JNum 48) JNull JNull JNull JNull JNull JNull JNull JNull (JStr "pcraster") JNull JNull JNull
    JNull JNull JNull JNull "" JNull (JStr "in2.grb") true false false (JStr "2t") JNull JNull JNull JNull false JNull JNull JNull
    JNull JNull JNull JNull (JNum 24) JNull (JNum 12) (JStr "average") (JBool false) false in
  let f1 := mkGfile true [ex_msg "2t" 0 0 2 0 0 [nint 1; nint 2]; ex_msg "2t" 6 6 2 0 0 [nint 3; nint 4]; ex_msg "2t" 12 12 2 0 0 [nint 5; nint 6];
    ex_msg "2t" 18 18 2 0 0 [nint 7; nint 8]; ex_msg "2t" 24 24 2 0 0 [nint 9; nint 10]] in
  let f2 := mkGfile true [ex_msg "2t" 24 24 1 0 0 [nint 11]; ex_msg "2t" 36 36 1 0 0 [nint 12]; ex_msg "2t" 48 48 1 0 0 [nint 13]] in
  let o := mkExt (fun j => if jis j "in2.grb" then Some f2 else Some f1) (fun _ _ => Ok tt) (fun _ => Some (fun v => v)) (fun _ _ a => Ok a) (fun _ => Ok tt) (Ok tt) (fun _ => Ok tt) in
  usable_request x2 "2t" /\ usable_file f1 /\ usable_file f2 /\ out_of o x2 = (Ok tt, [(0, 12); (12, 24); (24, 36); (36, 48)]%Z).
Proof.
  cbv zeta. split; [vm_compute; reflexivity|]. split; [apply ex_usable|]. split; [repeat split|]. split; [file_ok|]. split.
  - apply Exists_cons_tl, Exists_cons_hd. split; [exists "2t"; split; [reflexivity|now left]|]. do 4 (split; [now left|]). exists 6%Z, 6%Z. cbn. repeat split; lia.
  - split; [unfold usable_request; cbn; repeat split; auto; constructor; [|constructor; [|constructor; [|constructor]]]; cbn; intuition discriminate|].
    split; [file_ok|]. split; [file_ok|]. vm_compute. reflexivity.
Qed.
