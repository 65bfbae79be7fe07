(** * Sim_P5: the maps of the API and of the command (for C98). *)
From Verif Require Import Base Base_P Num PyStr Strings Config Context Aggregator Converter Reader Spec_Reader Reader_P Reader_P2 Reader_P3 Controller Spec_Controller Writers Api Spec_Api Props_Setup2 Sim_P Sim_P2 Sim_P3 Sim_P4.
From Coq Require Import Lia Permutation Sorted.
Local Open Scope string_scope.

(** ** cells *)
Definition nan_cell (mv x : num) : num := if is_nan x then mv else x.
Lemma cell_nan mv x : same_cell mv x (nan_cell mv x).
Proof. unfold same_cell, nan_cell. destruct (is_nan x); auto. Qed.
Lemma fill_nan m d mv : match fill_where m d mv with
  | Ok l => exists l', fill_where m (map (nan_cell mv) d) mv = Ok l' /\ Forall2 (same_cell mv) l l'
  | Raise e => fill_where m (map (nan_cell mv) d) mv = Raise e end.
Proof.
  unfold fill_where. destruct m as [b|].
  - rewrite map_length. destruct (Nat.eqb (List.length b) (List.length d)); [|reflexivity]. eexists. split; [reflexivity|].
    revert d. induction b as [|b0 b IH]; intros [|x d]; cbn [zipw map]; constructor; [|apply IH]. destruct b0; [now left|apply cell_nan].
  - eexists. split; [reflexivity|]. induction d as [|x d IH]; cbn [map]; constructor; [apply cell_nan|exact IH].
Qed.
Lemma write_mask cm mv a : match pcr_mask_values cm mv a with
  | Ok l => exists l', pcr_write cm mv a = Ok l' /\ Forall2 (same_cell mv) l l'
  | Raise e => pcr_write cm mv a = Raise e end.
Proof.
  unfold pcr_write. destruct a as [d|d m]; cbn [nan_to pcr_mask_values]; [exact (fill_nan cm d mv)|].
  destruct cm as [b|], m as [b'|]; [|exact (fill_nan (mask_or (Some b) None) d mv)|exact (fill_nan (mask_or None (Some b')) d mv)|exact (fill_nan (mask_or None None) d mv)].
  destruct (Nat.eqb (List.length b) (List.length b')); [exact (fill_nan (Some (zipw orb b b')) d mv)|reflexivity].
Qed.

(** ** the loops *)
Section Loops.
Variable k : Z.
Variable m : messages.
Variable cm : option (list bool).
Variable mv : num.
Variable o o' : ext.
Hypothesis same : forall second a, xt_map o' (sgrid k (grid_of m second)) second a = xt_map o (grid_of m second) second a.
Definition looks (a b : written) : Prop :=
  wn_step b = wn_step a /\ wn_field b = wn_field a /\ wn_second b = wn_second a /\
  exists l, pcr_mask_values cm mv (wn_out a) = Ok l /\ wn_out b = Nd l.
Lemma change_shift c s : at_change (smsg k m) c s = at_change m c s.
Proof. unfold at_change, have_change. cbn [smsg m_grid2]. destruct (m_grid2 m); reflexivity. Qed.
Lemma grid_shift second : grid_of (smsg k m) second = sgrid k (grid_of m second).
Proof. unfold grid_of. cbn [smsg m_grid m_grid2]. destruct second; [|reflexivity]. destruct (m_grid2 m) as [[g kk]|]; reflexivity. Qed.
Lemma loop_pcr c vals : forall second i j,
  match nc_loop (api_ext cm mv o') (smsg k m) c second j vals with
  | Ok ws' => exists ws, pcr_loop (pcr_ext cm mv o) m c second i vals = (ws, Ok tt) /\ Forall2 looks ws ws'
  | Raise e => snd (pcr_loop (pcr_ext cm mv o) m c second i vals) = Raise e
  end.
Proof.
  induction vals as [|[s a] vals IH]; intros second i j; [cbn; exists []; split; [reflexivity|constructor]|].
  cbn [nc_loop pcr_loop]. unfold one_map. cbn [fst snd]. rewrite change_shift, grid_shift. set (sec := (second || at_change m c s)%bool). cbn [api_ext pcr_ext xt_map xt_put]. rewrite same.
  destruct (xt_map o (grid_of m sec) sec a) as [out|e]; [|reflexivity]. cbn [rbind wn_out]. pose proof (write_mask cm mv out) as Hm.
  destruct (pcr_mask_values cm mv out) as [l|e] eqn:El; [|cbn [rbind]; rewrite Hm; reflexivity]. destruct Hm as (l' & -> & _). cbn [rbind]. specialize (IH sec (i + 1)%Z (j + 1)%Z).
  destruct (nc_loop (api_ext cm mv o') (smsg k m) c sec (j + 1) vals) as [ws'|e].
  - destruct IH as (ws & -> & F). eexists. split; [reflexivity|]. constructor; [|exact F]. unfold looks. cbn. repeat (split; [reflexivity|]). exists l. auto.
  - cbn [rbind]. destruct (pcr_loop (pcr_ext cm mv o) m c sec (i + 1) vals) as [ws r]. exact IH.
Qed.
Lemma loop_nc c vals : forall second i j,
  match nc_loop (api_ext cm mv o') (smsg k m) c second j vals with
  | Ok ws' => exists ws, nc_loop o m c second i vals = Ok ws /\ Forall2 looks ws ws'
  | Raise e => forall ws, nc_loop o m c second i vals = Ok ws -> Exists (fun w => pcr_mask_values cm mv (wn_out w) = Raise e) ws
  end.
Proof.
  induction vals as [|[s a] vals IH]; intros second i j; [cbn; exists []; split; [reflexivity|constructor]|].
  cbn [nc_loop]. unfold one_map. cbn [fst snd]. rewrite change_shift, grid_shift. set (sec := (second || at_change m c s)%bool). cbn [api_ext xt_map]. rewrite same.
  destruct (xt_map o (grid_of m sec) sec a) as [out|e]; [|discriminate]. cbn [rbind wn_out]. specialize (IH sec (i + 1)%Z (j + 1)%Z).
  destruct (pcr_mask_values cm mv out) as [l|e] eqn:El.
  - cbn [rbind]. destruct (nc_loop (api_ext cm mv o') (smsg k m) c sec (j + 1) vals) as [ws'|e].
    + destruct IH as (ws & -> & F). cbn [rbind]. eexists. split; [reflexivity|]. constructor; [|exact F]. unfold looks. cbn. repeat (split; [reflexivity|]). exists l. auto.
    + cbn [rbind]. intros ws H. destruct (nc_loop o m c sec (i + 1) vals) as [ws1|]; [|discriminate]. cbn [rbind] in H. injection H as <-. constructor 2. now apply IH.
  - cbn [rbind]. intros ws H. destruct (nc_loop o m c sec (i + 1) vals) as [ws1|]; [|discriminate]. cbn [rbind] in H. injection H as <-. constructor 1. exact El.
Qed.
End Loops.

(** the steps of the maps are those of the fields *)
Lemma nc_steps o m c vals : forall second i ws, nc_loop o m c second i vals = Ok ws -> map wn_step ws = map fst vals.
Proof.
  induction vals as [|[s a] vals IH]; intros second i ws H; cbn [nc_loop] in H; [injection H as <-; reflexivity|]. apply rbind_ok in H as ([sec w] & H1 & H). apply rbind_ok in H as (ws1 & H2 & H).
  injection H as <-. cbn [map fst]. rewrite (IH _ _ _ H2). f_equal. unfold one_map in H1. apply rbind_ok in H1 as (out & _ & H1). injection H1 as _ <-. reflexivity.
Qed.
(** so the dictionary is the list of the maps *)
Lemma sort_sorted {A} (key : A -> Z) l : StronglySorted (fun a b => key a <= key b)%Z l -> sort_by key l = l.
Proof.
  induction 1 as [|a l Hs IH F]; [reflexivity|]. cbn [sort_by]. rewrite IH. destruct l as [|b l]; [reflexivity|]. cbn [insert_by]. inversion F as [|? ? F1 _]; subst. destruct (Z.leb_spec (key a) (key b)); [reflexivity|lia].
Qed.
Lemma result_list ws vals : map wn_step ws = map fst vals -> NoDup (map (@fst step arr) vals) -> by_end vals -> api_result ws = map (fun w => (wn_step w, wn_out w)) ws.
Proof.
  intros E N B. unfold api_result. rewrite (dict_of_NoDup step_eqb step_eqb_iff).
  - apply sort_sorted. unfold by_end in B. revert vals E N B. induction ws as [|w ws IH]; intros [|[s a] vals] E N B; cbn [map] in *; try discriminate; [constructor|].
    injection E as E1 E. inversion B as [|? ? B1 B2]; subst. inversion N; subst. constructor; [now apply (IH vals)|]. cbn [fst] in *. apply Forall_forall. intros kv Hk. apply in_map_iff in Hk as (w' & <- & Hw).
    cbn [fst]. apply (in_map wn_step) in Hw. rewrite E in Hw. apply in_map_iff in Hw as ([s' a'] & E' & Hw). rewrite Forall_forall in B2. specialize (B2 _ Hw). cbn [fst] in *. congruence.
  - unfold dkeys. rewrite map_map. cbn [fst]. assert (map (fun w => wn_step w) ws = map fst vals) as -> by exact E. exact N.
Qed.
