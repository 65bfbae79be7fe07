(** * Properties C98 and C99 (main/api.py Pyg2pApi.execute against
    main/__init__.py, main/controller.py and main/writers).
    Vocabulary: Spec_Api.v. Model: Api.v, Controller.v. Proofs: Sim_P.v ..
    Sim_P7.v. *)
From Verif Require Import Base Base_P Num PyStr Strings Config Context Aggregator Converter Reader Spec_Reader Reader_P Reader_P2 Reader_P3 Controller Spec_Controller Controller_P2 Controller_P4
  Writers Api Spec_Api Props_Reader Props_Controller Props_Setup2 Sim_P Sim_P2 Sim_P3 Sim_P4 Sim_P5 Sim_P6 Sim_P7.
From Verif Require Interp.
From Coq Require Import Lia Permutation Sorted.
Local Open Scope string_scope.

(** ** C98: the API returns what the program writes *)
(** the same request through the program ([x], PCRaster maps) and through the
    API (the same context without the keys the API does not have), both in the
    world [w]; interpolation and correction are the same function of the source
    message, and the writers can be made *)
Definition both_run (o o' : ext) (cm : option (list bool)) (mv : num) (f : interpolation) (x : ctx) (w : world)
    (r : res (fields * messages * option step)) (s : cst) (q : res fields) (s' : cst) : Prop :=
  good_world w /\ same_outside o o' /\ jtruthy (x_ahalf x) = false /\
  (forall v, xt_writer o x v = Ok tt) /\ (forall v, xt_writer o' (without_format_half x) v = Ok tt) /\
  execute o x true (cst0 w) = (r, s) /\ api_call cm mv o' (without_format_half x) w = (q, s') /\
  interpolates o f (c_w s) /\ interpolates o' f (c_w s').

(** Full statement: the API fails with the error of the program, and otherwise
    returns the cells of the maps the program writes, by step and in order. *)
Definition C98_full : Prop := forall o o' cm mv f x w r s q s', x_format x = JStr "pcraster" ->
  both_run (pcr_ext cm mv o) o' cm mv f x w r s q s' ->
  (forall e, q = Raise e <-> r = Raise e) /\
  (forall d, q = Ok d -> Forall2 (fun a kv => fst kv = wn_step a /\ exists cells, snd kv = Nd cells /\ pcr_write cm mv (wn_out a) = Ok cells) (c_out s) d).

(** Proved part: as stated, but a NaN is returned where the program writes the
    missing value; the steps are distinct and sorted by end step. *)
Theorem C98_pcraster_partial : forall o o' cm mv f x w r s q s', x_format x = JStr "pcraster" ->
  both_run (pcr_ext cm mv o) o' cm mv f x w r s q s' ->
  (forall e, q = Raise e <-> r = Raise e) /\
  (forall d, q = Ok d -> Forall2 (same_map cm mv) (c_out s) d /\ NoDup (map fst d) /\ by_end d).
Proof.
  intros o o' cm mv f x w r s q s' Hf (G & So & Ha & W1 & W2 & H1 & H2 & I1 & I2).
  rewrite execute_split in H1. destruct (execute (pcr_ext cm mv o) x false (cst0 w)) as [r0 s0] eqn:E0.
  unfold api_call in H2. destruct (api_execute (api_ext cm mv o') (without_format_half x) w) as [q0 s1] eqn:E1. assert (s1 = s') by congruence. subst s1. assert (Q : q = (do ws <- q0; Ok (api_result ws))) by congruence. clear H2.
  pose proof (both (pcr_ext cm mv o) o' x w cm mv G So Ha W1 W2 r0 s0 q0 s' E0 E1) as B. destruct r0 as [[[v m] c]|e].
  2: { assert (r = Raise e) by congruence. subst. split; [|discriminate]. intro e'. cbn [rbind]. split; congruence. }
  destruct B as (k & Q0 & Sm).
  unfold write_maps, pcraster in H1. rewrite Hf in H1. cbn [jis] in H1. change (String.eqb "pcraster" "pcraster") with true in H1. cbv iota in H1.
  assert (Cw : c_w s = c_w s0). { destruct (pcr_loop (pcr_ext cm mv o) m c false 1 v) as [ws [u|e]]; injection H1 as _ <-; reflexivity. }
  rewrite Cw in I1. specialize (Sm f I1 I2). change (xt_map (pcr_ext cm mv o)) with (xt_map o) in Sm.
  pose proof (loop_pcr k m cm mv o o' Sm c v false 1%Z 0%Z) as L. rewrite <- Q0 in L. pose proof (execute_no_out _ _ _ _ _ E0) as No. destruct (execute_keys _ _ _ _ _ _ _ E0) as [Nd_ Be].
  destruct q0 as [ws'|e].
  - destruct L as (ws & L & F). rewrite L in H1. assert (r = Ok (v, m, c) /\ c_out s = (c_out s0 ++ ws)%list) as [-> Co] by (injection H1 as <- <-; split; reflexivity). rewrite No in Co. cbn [app] in Co. cbn [rbind] in Q. subst q.
    split; [intro e; split; discriminate|]. intros d [= <-]. assert (St : map wn_step ws' = map fst v) by (symmetry in Q0; exact (nc_steps _ _ _ _ _ _ _ Q0)).
    rewrite (result_list ws' v St Nd_ Be), Co. split; [|split].
    + clear -F. induction F as [|a b l l' H F IH]; cbn [map]; constructor; [|exact IH]. destruct H as (S1 & _ & _ & cells & M & O). split; [exact S1|]. cbn [fst snd]. pose proof (write_mask cm mv (wn_out a)) as Wm. rewrite M in Wm. destruct Wm as (l2 & P & Fc). eauto.
    + rewrite map_map. cbn [fst]. assert (map (fun w0 => wn_step w0) ws' = map fst v) as -> by exact St. exact Nd_.
    + rewrite <- (result_list ws' v St Nd_ Be). unfold by_end, api_result. exact (sort_by_sorted (fun kv : step * arr => s_end (fst kv)) _).
  - destruct (pcr_loop (pcr_ext cm mv o) m c false 1 v) as [ws r1]. cbn [snd] in L. subst r1. assert (r = Raise e) by congruence. subst. cbn [rbind]. split; [intro e'; split; congruence|discriminate].
Qed.
Print Assumptions C98_pcraster_partial.

(** Proved part, NetCDF: the maps given to the writer are those returned, but for
    the mask of the clone; when the writer accepts them the program succeeds
    whenever the API does, and the API succeeds whenever the program does and the
    mask fits. *)
Theorem C98_netcdf_partial : forall o o' cm mv f x w r s q s', x_format x = JStr "netcdf" ->
  xt_nc_open o = Ok tt -> (forall ws, xt_nc_write o ws = Ok tt) ->
  both_run o o' cm mv f x w r s q s' ->
  (forall d, q = Ok d -> (exists v, r = Ok v) /\ Forall2 (masked_map cm mv) (c_out s) d /\ NoDup (map fst d) /\ by_end d) /\
  (forall v, r = Ok v -> Forall (fun a => exists cells, pcr_mask_values cm mv (wn_out a) = Ok cells) (c_out s) -> exists d, q = Ok d) /\
  (forall e, r = Raise e -> exists e', q = Raise e').
Proof.
  intros o o' cm mv f x w r s q s' Hf N1 N2 (G & So & Ha & W1 & W2 & H1 & H2 & I1 & I2).
  rewrite execute_split in H1. destruct (execute o x false (cst0 w)) as [r0 s0] eqn:E0.
  unfold api_call in H2. destruct (api_execute (api_ext cm mv o') (without_format_half x) w) as [q0 s1] eqn:E1. assert (s1 = s') by congruence. subst s1. assert (Q : q = (do ws <- q0; Ok (api_result ws))) by congruence. clear H2.
  pose proof (both o o' x w cm mv G So Ha W1 W2 r0 s0 q0 s' E0 E1) as B. destruct r0 as [[[v m] c]|e].
  2: { assert (r = Raise e) by congruence. subst. split; [discriminate|]. split; [discriminate|]. cbn [rbind]. eauto. }
  destruct B as (k & Q0 & Sm).
  unfold write_maps, pcraster in H1. rewrite Hf in H1. cbn [jis] in H1. change (String.eqb "netcdf" "pcraster") with false in H1. change (String.eqb "netcdf" "netcdf") with true in H1. cbv iota in H1. rewrite N1 in H1.
  assert (Cw : c_w s = c_w s0). { destruct (nc_loop o m c false 0 v) as [ws|e]; [rewrite N2 in H1|]; injection H1 as _ <-; reflexivity. }
  rewrite Cw in I1. specialize (Sm f I1 I2).
  pose proof (loop_nc k m cm mv o o' Sm c v false 0%Z 0%Z) as L. rewrite <- Q0 in L. pose proof (execute_no_out _ _ _ _ _ E0) as No. destruct (execute_keys _ _ _ _ _ _ _ E0) as [Nd_ Be].
  destruct q0 as [ws'|e].
  - destruct L as (ws & L & F). rewrite L, N2 in H1. assert (r = Ok (v, m, c) /\ c_out s = (c_out s0 ++ ws)%list) as [-> Co] by (injection H1 as <- <-; split; reflexivity). rewrite No in Co. cbn [app] in Co. cbn [rbind] in Q. subst q.
    split; [|split; [eauto|discriminate]]. intros d [= <-]. assert (St : map wn_step ws' = map fst v) by (symmetry in Q0; exact (nc_steps _ _ _ _ _ _ _ Q0)).
    split; [eauto|]. rewrite (result_list ws' v St Nd_ Be), Co. split; [|split].
    + clear -F. induction F as [|a b l l' H F IH]; cbn [map]; constructor; [|exact IH]. destruct H as (S1 & _ & _ & cells & M & O). split; [exact S1|]. cbn [fst snd]. eauto.
    + rewrite map_map. cbn [fst]. assert (map (fun w0 => wn_step w0) ws' = map fst v) as -> by exact St. exact Nd_.
    + rewrite <- (result_list ws' v St Nd_ Be). unfold by_end, api_result. exact (sort_by_sorted (fun kv : step * arr => s_end (fst kv)) _).
  - cbn [rbind] in Q. subst q. split; [discriminate|]. split; [|eauto]. intros v0 R F. exfalso. destruct (nc_loop o m c false 0 v) as [ws|e0] eqn:En; [|congruence].
    rewrite N2 in H1. assert (c_out s = (c_out s0 ++ ws)%list) as Co by (injection H1 as _ <-; reflexivity). rewrite No in Co. cbn [app] in Co. rewrite Co in F. specialize (L ws eq_refl).
    apply Exists_exists in L as (a & Ia & Ea). rewrite Forall_forall in F. destruct (F a Ia) as (cells & Ec). congruence.
Qed.
Print Assumptions C98_netcdf_partial.

(** cases: a file whose grid changes, averages over 12 hours *)
Definition api_o (f : interpolation) : ext :=
  mkExt (fun _ => Some ex_two) (fun _ _ => Ok tt) (fun _ => Some (fun v => v)) (fun g b a => f (ex_msg "2t" 0 0 2 0 0 []) (g_id g) (g_nj g) b a) (fun _ => Ok tt) (Ok tt) (fun _ => Ok tt).
Definition any_message (f : interpolation) : Prop := forall m m' i n b a, f m i n b a = f m' i n b a.
Lemma both_case f cm mv format : any_message f ->
  let x := ex_x format JNull JNull true (JNum 12) "average" in
  let a := execute (pcr_ext cm mv (api_o f)) x true (cst0 world0) in let b := api_call cm mv (api_o f) (without_format_half x) world0 in
  both_run (pcr_ext cm mv (api_o f)) (api_o f) cm mv f x world0 (fst a) (snd a) (fst b) (snd b).
Proof.
  intros Hf x a b. unfold both_run. split; [repeat constructor|]. split; [split; reflexivity|]. split; [reflexivity|]. split; [reflexivity|]. split; [reflexivity|].
  split; [apply surjective_pairing|]. split; [apply surjective_pairing|]. split; intros g m sec v _; apply Hf.
Qed.
Example C98_nonvacuous : let f : interpolation := fun _ _ _ _ a => Ok a in any_message f /\
  let x := ex_x "pcraster" JNull JNull true (JNum 12) "average" in
  map (fun a => (s_start (wn_step a), s_end (wn_step a))) (c_out (snd (execute (pcr_ext None (nint (-1)) (api_o f)) x true (cst0 world0)))) = [(0, 12); (12, 24); (24, 36); (36, 48)]%Z /\
  rmap (map (fun kv : step * arr => (s_start (fst kv), s_end (fst kv)))) (fst (api_call None (nint (-1)) (api_o f) (without_format_half x) world0)) = Ok [(0, 12); (12, 24); (24, 36); (36, 48)]%Z.
Proof. intro f. split; [intros ? ? ? ? ? ?; reflexivity|]. intro x. split; vm_compute; reflexivity. Qed.

(** a map with a NaN: the file gets the missing value, the dictionary the NaN *)
Definition nan_f : interpolation := fun _ _ _ _ _ => Ok (Nd [NaN]).
Definition nan_x : ctx := ex_x "pcraster" JNull JNull true (JNum 12) "average".
Definition nan_a := execute (pcr_ext None (nint (-1)) (api_o nan_f)) nan_x true (cst0 world0).
Definition nan_b := api_call None (nint (-1)) (api_o nan_f) (without_format_half nan_x) world0.
Lemma nan_both : both_run (pcr_ext None (nint (-1)) (api_o nan_f)) (api_o nan_f) None (nint (-1)) nan_f nan_x world0 (fst nan_a) (snd nan_a) (fst nan_b) (snd nan_b).
Proof. unfold nan_a, nan_b, nan_x. apply both_case. intros ? ? ? ? ? ?. reflexivity. Qed.
Lemma nan_written : map wn_out (c_out (snd nan_a)) = [Nd [NaN]; Nd [NaN]; Nd [NaN]; Nd [NaN]].
Proof. vm_compute. reflexivity. Qed.
Lemma nan_returned : rmap (map snd) (fst nan_b) = Ok [Nd [NaN]; Nd [NaN]; Nd [NaN]; Nd [NaN]].
Proof. vm_compute. reflexivity. Qed.
Lemma forall2_head {A B} (P : A -> B -> Prop) l b l' : Forall2 P l (b :: l') -> exists a l0, l = a :: l0 /\ P a b.
Proof. intro H. inversion H; subst. eauto. Qed.
Theorem C98_nan_refuted : ~ C98_full.
Proof.
  intro H. destruct (H (api_o nan_f) (api_o nan_f) None (nint (-1)) nan_f nan_x world0 _ _ _ _ eq_refl nan_both) as [_ K]. clear H.
  pose proof nan_written as W. pose proof nan_returned as R. revert K W R. generalize (c_out (snd nan_a)) as out. generalize (fst nan_b) as ret_. intros [d|e] out K W R; [|discriminate].
  specialize (K d eq_refl). cbn [rmap] in R. assert (R' : map snd d = [Nd [NaN]; Nd [NaN]; Nd [NaN]; Nd [NaN]]) by congruence. clear R. destruct d as [|[k v] d]; [discriminate|]. cbn [map snd] in R'. assert (v = Nd [NaN]) by congruence. subst v.
  destruct (forall2_head _ _ _ _ K) as (a & l0 & -> & _ & cells & C1 & C2). cbn [snd] in C1. assert (cells = [NaN]) by congruence. subst cells.
  cbn [map] in W. assert (Wa : wn_out a = Nd [NaN]) by congruence. rewrite Wa in C2. vm_compute in C2. discriminate.
Qed.
Print Assumptions C98_nan_refuted.

(** *** tables of the grib modes *)
(** Full statement: the interpolator of the API and that of the program give the
    same table. *)
Definition C98_tables_full : Prop := forall e d p r, interpolate_aux false e d p r = interpolate_aux true e d p r.
(** the program creates the table, the API fails *)
Theorem C98_tables_refuted : ~ C98_tables_full.
Proof.
  intro H. specialize (H (Interp.mkEnv [] "/g" true (Ok tt)) (Interp.mkDisk [] []) (Interp.mkProc [] [] [] "/u") (Interp.mkReq "G" "T" "grib_nearest" "in.grb" 4%Z)). vm_compute in H. discriminate.
Qed.
Print Assumptions C98_tables_refuted.
(** Proved part: they do in the scipy modes, and in the grib modes when the table
    is on disk under its name or may not be created; otherwise the API fails. *)
Theorem C98_tables_partial : forall e d p r,
  interpolate_aux true e d p r = Interp.interpolate e d p r /\
  (Interp.is_grib_mode (Interp.q_mode r) = false \/ Interp.e_create e = false \/
   (exists path, Interp.intertable_filename e d p r = Ok path /\ Interp.exists_file d path = true) ->
   interpolate_aux false e d p r = Interp.interpolate e d p r) /\
  (Interp.is_grib_mode (Interp.q_mode r) = true -> Interp.e_create e = true -> Interp.e_write e = Ok tt ->
   (forall path, Interp.intertable_filename e d p r = Ok path -> Interp.exists_file d path = false) ->
   forall v, interpolate_aux false e d p r <> Ok v).
Proof.
  intros e d p r. unfold interpolate_aux. split.
  { destruct (Interp.intertable_filename e d p r) as [path|ex] eqn:E; cbn [rbind].
    - rewrite Bool.andb_false_r. reflexivity.
    - unfold Interp.interpolate. rewrite E. reflexivity. }
  split.
  - intros H. destruct (Interp.intertable_filename e d p r) as [path|ex] eqn:E; cbn [rbind]; [|unfold Interp.interpolate; rewrite E; reflexivity].
    unfold Interp.table_found. destruct H as [-> | [-> | (path' & [= <-] & ->)]]; [reflexivity|rewrite Bool.andb_false_r; reflexivity|].
    destruct (Interp.is_grib_mode (Interp.q_mode r)); reflexivity.
  - intros H1 H2 H3 H4 v. destruct (Interp.intertable_filename e d p r) as [path|ex]; cbn [rbind]; [|discriminate]. unfold Interp.table_found. rewrite H1, H2, (H4 path eq_refl). cbn [negb andb].
    destruct (String.eqb (Interp.q_mode r) "grib_nearest"); rewrite ?H3; discriminate.
Qed.
Print Assumptions C98_tables_partial.
Example C98_tables_nonvacuous : let e := Interp.mkEnv [] "/g" true (Ok tt) in let d := Interp.mkDisk [] [] in let p := Interp.mkProc [] [] [] "/u" in let r := Interp.mkReq "G" "T" "grib_invdist" "in.grb" 4%Z in
  (exists v, interpolate_aux true e d p r = Ok v) /\ interpolate_aux false e d p r = Raise OtherError.
Proof. cbv zeta. split; [eexists; vm_compute; reflexivity|vm_compute; reflexivity]. Qed.

(** ** C99: nothing stays open *)
(** Full statement: whatever commands and API calls a process makes, when all of
    them end normally the handles, indexes and files open afterwards are those
    open before. *)
Definition C99_full : Prop := forall cs w bs w', good_world w -> history cs w = (bs, w') -> Forall (eq true) bs -> same_open w w'.
(** Proved part 1: it holds for commands; indexes and files are closed even when
    commands end with an uncaught exception. *)
Definition is_command (c : call) : Prop := match c with Command _ _ => True | _ => False end.
Theorem C99_commands_partial : forall cs w bs w', Forall is_command cs -> history cs w = (bs, w') ->
  w_index w' = w_index w /\ w_files w' = w_files w /\
  (good_world w -> Forall (eq true) bs -> same_open w w' /\ w_bad w' = w_bad w /\ good_world w').
Proof.
  induction cs as [|c cs IH]; intros w bs w' F H; cbn [history] in H.
  - injection H as <- <-. split; [reflexivity|]. split; [reflexivity|]. intros G _. split; [repeat split|]. auto.
  - inversion F as [|? ? F1 F2]; subst. destruct c as [o x|]; [|contradiction]. cbn [perform] in H. destruct (run_command o x w) as [out s] eqn:Er. destruct (history cs (c_w s)) as [bs1 w1] eqn:Eh. assert (w1 = w') by congruence. subst w1. assert (Bs : bs = (match out with Exit _ => true | Uncaught _ => false end) :: bs1) by congruence. clear H.
    destruct (execute o x true (cst0 w)) as [r s0] eqn:Ee. destruct (C28_exact _ _ _ _ _ _ _ Ee Er) as (_ & A1 & A2). destruct (IH _ _ _ F2 Eh) as (B1 & B2 & B3).
    split; [congruence|]. split; [congruence|]. intros G Fb. rewrite Bs in Fb. inversion Fb as [|? ? Fo Fr]; subst. destruct out as [z|ex]; [|discriminate].
    destruct (C28_status _ _ _ _ _ _ _ G Ee Er) as (Z0 & Z1 & Z2 & R1 & R2 & R3 & R4).
    assert (G2 : good_world (c_w s)).
    { destruct (run_spec _ _ _ _ _ _ _ Ee Er) as [_ Ew]. assert (Ap : app_outcome r). { destruct r as [v|ex]; [exact I|]. destruct Z2 as [-> | ->]; [destruct (proj1 Z0 eq_refl) as [[v Hv]|Hv]; [discriminate|injection Hv as ->; exact I]|destruct (proj1 Z1 eq_refl) as (cc & Hc & _); injection Hc as ->; exact I]. }
      pose proof (good_sinv _ _ (execute_sinv _ _ _ _ _ _ G Ee Ap)) as G0. rewrite Ew. cbv zeta. destruct (c_r1 s0) as [r1|], (c_r2 s0) as [r2|]; repeat apply good_close; exact G0. }
    destruct (B3 G2 Fr) as ((C1 & C2 & C3) & C4 & C5). split; [split; [congruence|split; congruence]|]. split; [congruence|exact C5].
Qed.
Print Assumptions C99_commands_partial.
(** Proved part 2: every API call that returns leaves two readers open, three
    with a second input file; nothing closes them. *)
Definition is_api (c : call) : Prop := match c with ApiCall _ _ _ _ => True | _ => False end.
Definition leaves (c : call) : nat := match c with Command _ _ => 0 | ApiCall _ _ _ x => if jtruthy (x_input2 x) then 3 else 2 end.
Theorem C99_history_partial : forall cs w bs w', history cs w = (bs, w') -> Forall (eq true) bs ->
  open_count w' = (open_count w + list_sum (map leaves cs))%nat.
Proof.
  induction cs as [|c cs IH]; intros w bs w' H F; cbn [history] in H.
  - injection H as <- <-. cbn. lia.
  - destruct (perform c w) as [b w1] eqn:Ep. destruct (history cs w1) as [bs1 w2] eqn:Eh. assert (w2 = w') by congruence. subst w2. assert (bs = b :: bs1) by congruence. subst bs. clear H. inversion F as [|? ? F1 F2]; subst.
    rewrite (IH _ _ _ Eh F2). cbn [map list_sum fold_right]. assert (open_count w1 = (open_count w + leaves c)%nat); [|change (fold_right Nat.add 0%nat (map leaves cs)) with (list_sum (map leaves cs)); lia].
    destruct c as [o x|cm mv o x]; cbn [perform leaves] in *.
    + destruct (run_command o x w) as [out s] eqn:Er. destruct (execute o x true (cst0 w)) as [r s0] eqn:Ee. destruct (C28_exact _ _ _ _ _ _ _ Ee Er) as (_ & A1 & A2). assert (w1 = c_w s) by congruence. subst. unfold open_count. lia.
    + unfold api_call in Ep. destruct (api_execute (api_ext cm mv o) x w) as [[ws|e] s] eqn:Ea; cbn [rbind] in Ep; [|congruence]. assert (w1 = c_w s) by congruence. subst. rewrite (api_open _ _ _ _ _ Ea). destruct (jtruthy (x_input2 x)); lia.
Qed.
Print Assumptions C99_history_partial.
Theorem C99_api_refuted : ~ C99_full.
Proof.
  intro H. pose (f := (fun _ _ _ _ a => Ok a) : interpolation). pose (cs := [ApiCall None (nint (-1)) (api_o f) (ex_x "" JNull JNull true (JNum 12) "average")]).
  destruct (H cs world0 (fst (history cs world0)) (snd (history cs world0)) ltac:(repeat constructor) ltac:(apply surjective_pairing)) as (_ & K & _).
  - assert (E : fst (history cs world0) = [true]) by (vm_compute; reflexivity). rewrite E. repeat constructor.
  - vm_compute in K. discriminate.
Qed.
Print Assumptions C99_api_refuted.
Example C99_nonvacuous : let f : interpolation := fun _ _ _ _ a => Ok a in
  let c := Command (api_o f) (ex_x "pcraster" JNull JNull true (JNum 12) "average") in let a := ApiCall None (nint (-1)) (api_o f) (ex_x "" JNull JNull true (JNum 12) "average") in
  fst (history [c; a; c; a] world0) = [true; true; true; true] /\ open_count (snd (history [c; a; c; a] world0)) = 4%nat /\ List.length (w_live (snd (history [c; a; c; a] world0))) <> 0%nat.
Proof. vm_compute. split; [reflexivity|]. split; [reflexivity|discriminate]. Qed.
