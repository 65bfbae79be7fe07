(** * Json_P: proofs about Json.v *)
From Verif Require Import Base PyStr Config Json Base_P PyStr_P Config_P.
From Coq Require Import Permutation DecimalString DecimalFacts DecimalPos DecimalZ Decimal Lia.
Local Open Scope string_scope.

Lemma json_ind2 (P : json -> Prop) :
  P JNull -> (forall b, P (JBool b)) -> (forall z, P (JNum z)) -> (forall s, P (JStr s)) ->
  (forall l, Forall P l -> P (JArr l)) -> (forall d, Forall (fun kv => P (snd kv)) d -> P (JObj d)) ->
  forall j, P j.
Proof.
  intros H1 H2 H3 H4 H5 H6. fix IH 1. intros [|b|z|s|l|d]; [exact H1|apply H2|apply H3|apply H4| |].
  - apply H5. induction l as [|v l IHl]; constructor; [apply IH|exact IHl].
  - apply H6. induction d as [|[k v] d IHd]; constructor; [apply IH|exact IHd].
Qed.

(** ** strings *)
Lemma rstring_esc_char c s : rstring (esc_char c +++ s) = scons c (rstring s).
Proof. destruct c as [[|] [|] [|] [|] [|] [|] [|] [|]]; reflexivity. Qed.
Lemma rstring_esc s r : rstring (esc s +++ String quote r) = Some (s, r).
Proof.
  induction s as [|c s IH]; [reflexivity|]. cbn [esc]. rewrite sapp_assoc, rstring_esc_char, IH. reflexivity.
Qed.

(** ** numbers *)
Definition stop (s : string) : Prop :=
  match s with "" => True | String c _ => is_digit c = false /\ no_fraction s = true end.
Lemma digits_app d r : sforall is_digit d = true -> stop r -> take_digits (d +++ r) = (d, r).
Proof.
  induction d as [|c d IH]; cbn [sforall append take_digits]; intros H Hr.
  - destruct r as [|c r]; [reflexivity|]. cbn [take_digits]. destruct Hr as [-> _]. reflexivity.
  - apply andb_prop in H as [H1 H2]. rewrite H1, IH; auto.
Qed.
Lemma uint_digits d : sforall is_digit (NilEmpty.string_of_uint d) = true.
Proof. induction d; cbn [NilEmpty.string_of_uint sforall]; auto. Qed.

Lemma nzhead_lead d : match nzhead d with D0 _ => False | _ => True end.
Proof. induction d; cbn; auto. Qed.
Lemma pos_lead p : match Pos.to_uint p with D0 _ | Nil => False | _ => True end.
Proof.
  assert (H := Unsigned.of_to p). assert (H2 := Unsigned.to_of (Pos.to_uint p)). rewrite H in H2. cbn in H2.
  assert (H3 := nzhead_lead (Pos.to_uint p)). rewrite H2. unfold unorm.
  destruct (nzhead (Pos.to_uint p)) eqn:E; auto.
  unfold unorm in H2. rewrite E in H2. rewrite H2 in H. cbn in H. discriminate.
Qed.
Lemma rnat_uint d r : match d with D0 _ | Nil => False | _ => True end -> stop r ->
  rnat (NilZero.string_of_uint d +++ r) = Some (NilZero.string_of_uint d, r).
Proof.
  intros H Hr. assert (G : rnat (NilZero.string_of_uint d +++ r) = Some (take_digits (NilEmpty.string_of_uint d +++ r))).
  { destruct d; try contradiction; reflexivity. }
  rewrite G, digits_app; [|apply uint_digits|exact Hr]. destruct d; try contradiction; reflexivity.
Qed.
Lemma rnum_str z r : stop r -> rnum (str_of_Z z +++ r) = Some (JNum z, r).
Proof.
  intro Hr. assert (Hf : no_fraction r = true) by (destruct r; [reflexivity|exact (proj2 Hr)]).
  assert (Hz := Z_of_str_of_Z z). unfold str_of_Z in *. destruct z as [|p|p]; cbn [Z.to_int NilZero.string_of_int] in *.
  - change (NilZero.string_of_uint (D0 Nil)) with "0". cbn [append rnum rnat]. unfold rnum. cbn [rnat Ascii.eqb Bool.eqb]. rewrite Hf. reflexivity.
  - assert (H := pos_lead p). assert (G := rnat_uint (Pos.to_uint p) r H Hr).
    remember (NilZero.string_of_uint (Pos.to_uint p)) as t eqn:Et.
    assert (rnum (t +++ r) = match rnat (t +++ r) with Some (d, rest) => if no_fraction rest then match Z_of_str ("" +++ d) with Some z => Some (JNum z, rest) | None => None end else None | None => None end).
    { rewrite Et. destruct (Pos.to_uint p); try contradiction; reflexivity. }
    rewrite H0, G, Hf. change ("" +++ t) with t. rewrite Hz. reflexivity.
  - assert (H := pos_lead p). assert (G := rnat_uint (Pos.to_uint p) r H Hr).
    unfold rnum. cbn [append]. rewrite G, Hf. change ("-" +++ NilZero.string_of_uint (Pos.to_uint p)) with (String "-" (NilZero.string_of_uint (Pos.to_uint p))).
    rewrite Hz. reflexivity.
Qed.

(** ** the shape of the text *)
Fixpoint more_items (lvl : nat) (l : list json) : string :=
  match l with [] => "" | v :: l' => "," +++ nl lvl +++ pjson lvl v +++ more_items lvl l' end.
Fixpoint more_members (lvl : nat) (d : list (string * json)) : string :=
  match d with [] => "" | (k, v) :: d' => "," +++ nl lvl +++ pstring k +++ ": " +++ pjson lvl v +++ more_members lvl d' end.
Lemma pjson_arr lvl v l : pjson lvl (JArr (v :: l)) =
  "[" +++ nl (S lvl) +++ pjson (S lvl) v +++ more_items (S lvl) l +++ nl lvl +++ "]".
Proof.
  cbn [pjson]. f_equal. f_equal. f_equal. f_equal.
  induction l as [|w l IH]; [reflexivity|]. cbn [more_items]. rewrite <- IH. reflexivity.
Qed.
Lemma pjson_obj lvl k v d : pjson lvl (JObj ((k, v) :: d)) =
  "{" +++ nl (S lvl) +++ pstring k +++ ": " +++ pjson (S lvl) v +++ more_members (S lvl) d +++ nl lvl +++ "}".
Proof.
  cbn [pjson]. f_equal. f_equal. f_equal. f_equal. f_equal. f_equal.
  induction d as [|[k2 w] d IH]; [reflexivity|]. cbn [more_members]. rewrite <- IH. reflexivity.
Qed.

Definition solid (s : string) : Prop := match s with "" => False | String c _ => is_ws c = false end.
Lemma solid_app s t : solid s -> solid (s +++ t).
Proof. destruct s; [contradiction|auto]. Qed.
Lemma skip_solid s : solid s -> skip_ws s = s.
Proof. destruct s as [|c s]; [contradiction|]. unfold skip_ws. cbn [solid lstrip]. now intros ->. Qed.
Lemma skip_blank n s : skip_ws (srepeat " "%char n +++ s) = skip_ws s.
Proof. induction n; [reflexivity|exact IHn]. Qed.
Lemma skip_nl n s : solid s -> skip_ws (nl n +++ s) = s.
Proof. intro H. unfold nl. rewrite sapp_assoc. change (skip_ws (srepeat " "%char (4 * n) +++ s) = s). rewrite skip_blank. now apply skip_solid. Qed.

Lemma str_of_Z_head z : exists c t, str_of_Z z = String c t /\ (is_digit c = true \/ c = "-"%char).
Proof.
  unfold str_of_Z. destruct z as [|p|p]; cbn [Z.to_int NilZero.string_of_int].
  - exists "0"%char, "". split; [reflexivity|now left].
  - assert (H := pos_lead p). destruct (Pos.to_uint p); try contradiction; eexists _, _; (split; [reflexivity|now left]).
  - eexists _, _. split; [reflexivity|now right].
Qed.
Lemma digit_solid c t : is_digit c = true -> solid (String c t).
Proof.
  unfold is_digit. cbn [solid]. unfold is_ws. intro H. apply andb_prop in H as [H1 H2].
  apply Nat.leb_le in H1, H2. rewrite !(proj2 (Nat.eqb_neq _ _)) by lia. reflexivity.
Qed.
Lemma pjson_solid lvl j : solid (pjson lvl j).
Proof.
  destruct j as [|[|]|z|s|[|v l]|[|[k v] d]]; try reflexivity.
  cbn [pjson]. destruct (str_of_Z_head z) as [c [t [-> [H| ->]]]]; [now apply digit_solid|reflexivity].
Qed.

(** ** how many steps the reader needs *)
Fixpoint need (j : json) : nat :=
  match j with
  | JArr l => 2 + fold_right (fun v n => 1 + need v + n) 0 l
  | JObj d => 2 + fold_right (fun kv n => 1 + need (snd kv) + n) 0 d
  | _ => 1
  end%nat.

Fixpoint jwf (j : json) : Prop :=
  match j with
  | JArr l => fold_right (fun v P => jwf v /\ P) True l
  | JObj d => NoDup (map fst d) /\ fold_right (fun kv P => jwf (snd kv) /\ P) True d
  | _ => True
  end.
Lemma jwf_arr l : jwf (JArr l) <-> Forall jwf l.
Proof. cbn [jwf]. induction l as [|v l IH]; cbn; [split; auto|]. rewrite IH. split; [intros []; auto|inversion 1; auto]. Qed.
Lemma jwf_obj d : jwf (JObj d) <-> NoDup (map fst d) /\ Forall (fun kv => jwf (snd kv)) d.
Proof.
  cbn [jwf]. apply and_iff_compat_l. induction d as [|v l IH]; cbn; [split; auto|]. rewrite IH. split; [intros []; auto|inversion 1; auto].
Qed.

Definition reads (lvl : nat) (j : json) : Prop := forall fuel r, (need j <= fuel)%nat -> stop r ->
  rval fuel (pjson lvl j +++ r) = Some (j, r).

Lemma expect_yes c s : expect c (String c s) = Some s.
Proof. cbn [expect]. now rewrite Ascii.eqb_refl. Qed.
Lemma nl_stop n s : stop (nl n +++ s).
Proof. split; reflexivity. Qed.
Lemma comma_stop s : stop ("," +++ s).
Proof. split; reflexivity. Qed.

Lemma ritems_more lvl lvl' l : Forall (fun v => reads lvl v) l -> forall v fuel r, reads lvl v ->
  (fold_right (fun v n => 1 + need v + n) 0 (v :: l) <= fuel)%nat ->
  ritems fuel (pjson lvl v +++ more_items lvl l +++ nl lvl' +++ "]" +++ r) = Some (v :: l, r).
Proof.
  induction 1 as [|w l Hw Hl IH]; intros v fuel r Hv Hf; cbn [fold_right] in Hf; (destruct fuel as [|fuel]; [lia|]).
  - cbn [ritems more_items append]. rewrite Hv; [|lia|apply nl_stop]. rewrite skip_nl by reflexivity.
    rewrite expect_yes. reflexivity.
  - cbn [ritems more_items]. rewrite !sapp_assoc. rewrite Hv; [|lia|apply comma_stop].
    rewrite skip_solid by reflexivity. change (expect "]"%char ("," +++ ?x)) with (@None string). cbn [append].
    rewrite expect_yes. rewrite ?sapp_assoc, skip_nl by apply solid_app, pjson_solid.
    assert (G := IH w fuel r Hw). cbn [append] in G. rewrite G; [reflexivity|cbn [fold_right]; lia].
Qed.

Lemma dset_new {V} (d : list (string * V)) k v : ~ In k (map fst d) -> dset String.eqb d k v = (d ++ [(k, v)])%list.
Proof.
  induction d as [|[k' v'] d IH]; cbn; [reflexivity|]. intro H. destruct (String.eqb_spec k k') as [->|Hn].
  - destruct H. now left.
  - f_equal. apply IH. tauto.
Qed.

Lemma rmembers_more lvl lvl' d : Forall (fun kv => reads lvl (snd kv)) d -> forall k v acc fuel r, reads lvl v ->
  NoDup (map fst acc ++ k :: map fst d) ->
  (fold_right (fun kv n => 1 + need (snd kv) + n) 0 ((k, v) :: d) <= fuel)%nat ->
  rmembers fuel (pstring k +++ ": " +++ pjson lvl v +++ more_members lvl d +++ nl lvl' +++ "}" +++ r) acc = Some ((acc ++ (k, v) :: d)%list, r).
Proof.
  induction 1 as [|[k2 w] d Hw Hd IH]; intros k v acc fuel r Hv Hn Hf; cbn [fold_right snd] in *; (destruct fuel as [|fuel]; [lia|]).
  - cbn [rmembers more_members append pstring]. rewrite expect_yes, sapp_assoc. cbn [append]. rewrite rstring_esc.
    rewrite skip_solid by reflexivity. rewrite expect_yes.
    change (String " " (pjson lvl v +++ ?x)) with (srepeat " "%char 1 +++ pjson lvl v +++ x). rewrite skip_blank, skip_solid by apply solid_app, pjson_solid.
    rewrite Hv; [|lia|apply nl_stop]. rewrite skip_nl by reflexivity. rewrite expect_yes.
    rewrite dset_new; [reflexivity|]. intro Hin. apply (NoDup_remove_2 (map fst acc) [] k); [exact Hn|]. now rewrite List.app_nil_r.
  - cbn [rmembers more_members append pstring]. rewrite expect_yes, sapp_assoc. cbn [append]. rewrite rstring_esc.
    rewrite skip_solid by reflexivity. rewrite expect_yes.
    change (String " " (pjson lvl v +++ ?x)) with (srepeat " "%char 1 +++ pjson lvl v +++ x). rewrite skip_blank, skip_solid by apply solid_app, pjson_solid.
    rewrite Hv; [|lia|split; reflexivity]. rewrite skip_solid by reflexivity.
    change (expect "}"%char (String "," ?x)) with (@None string). rewrite expect_yes.
    rewrite ?sapp_assoc, skip_nl by reflexivity.
    rewrite dset_new.
    2: { intro Hin. apply NoDup_remove_2 in Hn. apply Hn, in_or_app. now left. }
    specialize (IH k2 w (acc ++ [(k, v)])%list fuel r Hw). unfold pstring in IH. cbn [append] in IH.
    rewrite !sapp_assoc in *. cbn [append] in *. rewrite ?sapp_assoc. cbn [append]. rewrite ?sapp_assoc. rewrite IH.
    + now rewrite <- List.app_assoc.
    + rewrite map_app, <- List.app_assoc. exact Hn.
    + cbn [fold_right snd]. lia.
Qed.

Lemma pjson_reads j : jwf j -> forall lvl, reads lvl j.
Proof.
  induction j as [| |z|s|l IH|d IH] using json_ind2; intros Hw lvl fuel r Hf Hr; (destruct fuel as [|fuel]; [cbn [need] in Hf; lia|]).
  - reflexivity.
  - destruct b; reflexivity.
  - cbn [pjson]. destruct (str_of_Z_head z) as [c [t [E Hc]]]. assert (G := rnum_str z r Hr). rewrite E in *. cbn [append] in *.
    assert (rval (S fuel) (String c (t +++ r)) = rnum (String c (t +++ r))); [|congruence].
    destruct Hc as [Hc| ->]; [|reflexivity]. clear -Hc.
    destruct c as [[|] [|] [|] [|] [|] [|] [|] [|]]; vm_compute in Hc; try discriminate; reflexivity.
  - cbn [pjson rval pstring append]. rewrite expect_yes, sapp_assoc. cbn [append]. rewrite rstring_esc. reflexivity.
  - apply jwf_arr in Hw. destruct l as [|v l]; [reflexivity|].
    assert (HR : Forall (fun w => reads (S lvl) w) (v :: l)).
    { clear -IH Hw. induction (v :: l) as [|w l' IHl]; constructor; inversion IH; inversion Hw; subst; auto. }
    rewrite pjson_arr. cbn [append]. rewrite !sapp_assoc. cbn [rval]. change (expect quote (String "[" ?x)) with (@None string).
    rewrite expect_yes. rewrite skip_nl by apply solid_app, pjson_solid.
    assert (E : expect "]"%char (pjson (S lvl) v +++ more_items (S lvl) l +++ nl lvl +++ "]" +++ r) = None).
    { destruct v as [|[|]|z|s|[|? ?]|[|[? ?] ?]]; try reflexivity. cbn [pjson].
      destruct (str_of_Z_head z) as [c [t [-> [Hc| ->]]]]; [|reflexivity]. clear -Hc.
      destruct c as [[|] [|] [|] [|] [|] [|] [|] [|]]; vm_compute in Hc; try discriminate; reflexivity. }
    rewrite E. inversion HR; subst. rewrite ritems_more; [reflexivity|assumption|assumption|cbn [need] in Hf; lia].
  - apply jwf_obj in Hw as [Hn Hw]. destruct d as [|[k v] d]; [reflexivity|].
    assert (HR : Forall (fun kv => reads (S lvl) (snd kv)) ((k, v) :: d)).
    { clear -IH Hw. induction ((k, v) :: d) as [|w l' IHl]; constructor; inversion IH; inversion Hw; subst; auto. }
    rewrite pjson_obj. cbn [append]. rewrite !sapp_assoc. cbn [rval]. change (expect quote (String "{" ?x)) with (@None string).
    change (expect "["%char (String "{" ?x)) with (@None string). rewrite expect_yes. rewrite skip_nl by reflexivity.
    change (expect "}"%char (pstring k +++ ?x)) with (@None string). cbn iota.
    inversion HR; subst.
    assert (G := rmembers_more (S lvl) lvl d H2 k v [] fuel r H1). cbn [app map] in G. unfold pstring in *. cbn [append] in *. rewrite ?sapp_assoc in *. cbn [append] in *. rewrite ?sapp_assoc in *. rewrite G; [reflexivity|exact Hn|cbn [need] in Hf; lia].
Qed.

(** ** enough steps *)
Lemma len_nl n : (1 <= String.length (nl n))%nat.
Proof. unfold nl. rewrite slen_app. cbn. lia. Qed.
Lemma len_solid s : solid s -> (1 <= String.length s)%nat.
Proof. destruct s; [contradiction|cbn; lia]. Qed.
Lemma need_len j : forall lvl, (need j <= 2 * String.length (pjson lvl j))%nat.
Proof.
  induction j as [| |z|s|l IH|d IH] using json_ind2; intro lvl.
  - cbn. lia.
  - destruct b; cbn; lia.
  - assert (H := len_solid _ (pjson_solid lvl (JNum z))). cbn [need]. lia.
  - assert (H := len_solid _ (pjson_solid lvl (JStr s))). cbn [need]. lia.
  - destruct l as [|v l]; [cbn; lia|]. rewrite pjson_arr, !slen_app. cbn [need fold_right].
    inversion IH as [|? ? Hv Hl]; subst. specialize (Hv (S lvl)). assert (H1 := len_nl (S lvl)). cbn [String.length].
    assert (H2 : (fold_right (fun v n => 1 + need v + n) 0 l <= 2 * String.length (more_items (S lvl) l))%nat).
    { clear -Hl. induction Hl as [|w l Hw Hl IHl]; [cbn; lia|]. cbn [fold_right more_items]. rewrite !slen_app. specialize (Hw (S lvl)). cbn [String.length]. lia. }
    lia.
  - destruct d as [|[k v] l]; [cbn; lia|]. rewrite pjson_obj, !slen_app. cbn [need fold_right snd].
    inversion IH as [|? ? Hv Hl]; subst. cbn [snd] in Hv. specialize (Hv (S lvl)). assert (H1 := len_nl (S lvl)). cbn [String.length].
    assert (H2 : (fold_right (fun kv n => 1 + need (snd kv) + n) 0 l <= 2 * String.length (more_members (S lvl) l))%nat).
    { clear -Hl. induction Hl as [|[k2 w] l Hw Hl IHl]; [cbn; lia|]. cbn [fold_right more_members snd] in *. rewrite !slen_app. specialize (Hw (S lvl)). cbn [String.length]. lia. }
    lia.
Qed.
Lemma loads_pjson j : jwf j -> loads (pjson 0 j) = Some j.
Proof.
  intro H. unfold loads. rewrite skip_solid by apply pjson_solid. assert (G := need_len j 0).
  assert (R := pjson_reads j H 0%nat (2 * String.length (pjson 0 j) + 2) ""). rewrite sapp_nil_r in R. rewrite R; [reflexivity|lia|exact I].
Qed.

Lemma jwf_jsort j : jwf j -> jwf (jsort j).
Proof.
  induction j as [| |z|s|l IH|d IH] using json_ind2; intro H; try exact H.
  - cbn [jsort]. apply jwf_arr. apply jwf_arr in H. induction H; inversion IH; subst; constructor; auto.
  - cbn [jsort]. apply jwf_obj. apply jwf_obj in H as [Hn H].
    set (m := map (fun kv => (fst kv, jsort (snd kv))) d).
    assert (Em : map fst m = map fst d) by (unfold m; rewrite map_map; reflexivity).
    split; [apply NoDup_sorted; unfold dkeys; rewrite Em; exact Hn|].
    eapply Permutation_Forall; [symmetry; apply sort_str_perm|]. unfold m. clear -IH H.
    induction H; inversion IH; subst; constructor; auto.
Qed.
Lemma loads_dumps j : jwf j -> loads (dumps j) = Some (jsort j).
Proof. intro H. apply loads_pjson, jwf_jsort, H. Qed.

(** ** reading a longer text *)
Lemma expect_some c s s' : expect c s = Some s' -> s = String c s'.
Proof. destruct s as [|a s]; cbn [expect]; [discriminate|]. destruct (Ascii.eqb_spec c a) as [->|]; congruence. Qed.
Lemma expect_app c s s' t : expect c s = Some s' -> expect c (s +++ t) = Some (s' +++ t).
Proof. intro H. apply expect_some in H as ->. cbn [append]. apply expect_yes. Qed.
Lemma expect_none_app c s t : s <> "" -> expect c s = None -> expect c (s +++ t) = None.
Proof. destruct s as [|a s]; [congruence|]. cbn [expect append]. intros _. destruct (Ascii.eqb c a); congruence. Qed.
Lemma expect_nonempty c s s' : expect c s = Some s' -> s <> "".
Proof. intros H E. subst. discriminate. Qed.
Lemma skip_app s t : skip_ws s <> "" -> skip_ws (s +++ t) = skip_ws s +++ t.
Proof.
  unfold skip_ws. induction s as [|c s IH]; cbn [lstrip append]; [congruence|]. destruct (is_ws c) eqn:E; [exact IH|reflexivity].
Qed.

Lemma rstring_app s : forall k r t, rstring s = Some (k, r) -> rstring (s +++ t) = Some (k, r +++ t).
Proof.
  induction s as [s IH] using (induction_ltof1 _ String.length). unfold ltof in IH. intros k r t H.
  destruct s as [|c s]; [discriminate|]. cbn [rstring append] in *. destruct (Ascii.eqb c quote); [congruence|].
  assert (G : forall x s0, (String.length s0 < S (String.length s))%nat -> scons x (rstring s0) = Some (k, r) -> scons x (rstring (s0 +++ t)) = Some (k, r +++ t)).
  { intros x s0 Hl Hs. destruct (rstring s0) as [[k0 r0]|] eqn:E; [|discriminate].
    rewrite (IH s0 Hl k0 r0 t E). cbn [scons] in *. congruence. }
  destruct (Ascii.eqb c backslash).
  - destruct s as [|e s2]; [discriminate|]. cbn [append String.length] in *. destruct (simple_esc e).
    + apply G; [lia|exact H].
    + destruct (Ascii.eqb e "u"); [|discriminate].
      destruct s2 as [|h1 [|h2 [|h3 [|h4 s3]]]]; try discriminate. cbn [append String.length] in *. destruct (hex4 h1 h2 h3 h4); [|discriminate].
      apply G; [lia|exact H].
  - destruct (Nat.ltb (code c) 32); [discriminate|]. apply G; [lia|exact H].
Qed.

Lemma take_digits_app s : forall d r t, take_digits s = (d, r) -> r <> "" -> take_digits (s +++ t) = (d, r +++ t).
Proof.
  induction s as [|c s IH]; cbn [take_digits append]; intros d r t H Hr; [congruence|].
  destruct (is_digit c); [|injection H as <- <-; reflexivity].
  destruct (take_digits s) as [d0 r0] eqn:E. injection H as <- <-. rewrite (IH d0 r0 t eq_refl Hr). reflexivity.
Qed.
Lemma rnat_app s d r t : rnat s = Some (d, r) -> r <> "" -> rnat (s +++ t) = Some (d, r +++ t).
Proof.
  destruct s as [|c s]; [discriminate|]. unfold rnat. cbn [append]. destruct (Ascii.eqb c "0"); [congruence|].
  destruct (is_digit c); [|discriminate]. intros H Hr. injection H as H. rewrite <- (take_digits_app (String c s) d r t H Hr). reflexivity.
Qed.
Lemma rnum_app s j r t : rnum s = Some (j, r) -> r <> "" -> rnum (s +++ t) = Some (j, r +++ t).
Proof.
  assert (G : forall sign s1, match rnat s1 with Some (d, rest) => if no_fraction rest then match Z_of_str (sign +++ d) with Some z => Some (JNum z, rest) | None => None end else None | None => None end = Some (j, r) -> r <> "" ->
    match rnat (s1 +++ t) with Some (d, rest) => if no_fraction rest then match Z_of_str (sign +++ d) with Some z => Some (JNum z, rest) | None => None end else None | None => None end = Some (j, r +++ t)).
  { intros sign s1 H Hr. destruct (rnat s1) as [[d rest]|] eqn:E; [|discriminate].
    destruct (no_fraction rest) eqn:F; [|discriminate]. destruct (Z_of_str (sign +++ d)) as [z|] eqn:Ez; [|discriminate].
    assert (rest = r) by congruence. subst rest. assert (j = JNum z) by congruence. subst j.
    rewrite (rnat_app s1 d r t E Hr). assert (F2 : no_fraction (r +++ t) = true) by (destruct r; [congruence|exact F]).
    rewrite F2, Ez. reflexivity. }
  intros H Hr. unfold rnum in *. destruct s as [|c s]; [discriminate|].
  destruct (ascii_dec c "-") as [->|Hc].
  - cbn [append]. apply (G "-" s H Hr).
  - destruct c as [[|] [|] [|] [|] [|] [|] [|] [|]]; try congruence; cbn [append]; match goal with |- context [rnat (String ?c ?x)] => apply (G "" (String c s) H Hr) end.
Qed.
Lemma rnum_head s j r : rnum s = Some (j, r) -> exists c s', s = String c s' /\ (is_digit c = true \/ c = "-"%char).
Proof.
  destruct s as [|c s]; [discriminate|]. intro H. exists c, s. split; [reflexivity|].
  destruct (is_digit c) eqn:E; [now left|]. right. revert H E.
  destruct c as [[|] [|] [|] [|] [|] [|] [|] [|]]; vm_compute; intros; congruence.
Qed.

Definition is_num (j : json) : bool := match j with JNum _ => true | _ => false end.
Lemma rnum_num s j r : rnum s = Some (j, r) -> is_num j = true.
Proof.
  unfold rnum. destruct (match s with String "-" s' => ("-", s') | _ => ("", s) end) as [sign s1].
  destruct (rnat s1) as [[d rest]|]; [|discriminate]. destruct (no_fraction rest); [|discriminate].
  destruct (Z_of_str (sign +++ d)); [|discriminate]. intro H. assert (E : j = JNum z) by congruence. now subst.
Qed.
Lemma starts_app p s t : starts_with p s = true -> starts_with p (s +++ t) = true /\ sdrop (String.length p) (s +++ t) = sdrop (String.length p) s +++ t.
Proof.
  intro H. apply starts_with_spec in H as [u ->]. rewrite sapp_assoc. split; [apply starts_with_app|]. now rewrite !sdrop_app.
Qed.
Lemma digit_not_word c s : is_digit c = true \/ c = "-"%char ->
  starts_with "null" (String c s) = false /\ starts_with "true" (String c s) = false /\ starts_with "false" (String c s) = false.
Proof.
  intros [H| ->]; [|auto]. destruct c as [[|] [|] [|] [|] [|] [|] [|] [|]]; vm_compute in H; try discriminate; auto.
Qed.

Lemma rval_empty n : rval n "" = None.
Proof. destruct n; reflexivity. Qed.
Lemma ritems_empty n : ritems n "" = None.
Proof. destruct n; [reflexivity|]. cbn [ritems]. now rewrite rval_empty. Qed.
Lemma rmembers_empty n a : rmembers n "" a = None.
Proof. destruct n; reflexivity. Qed.
Lemma reads_app n :
  (forall s j r t, rval n s = Some (j, r) -> is_num j = false \/ r <> "" -> rval n (s +++ t) = Some (j, r +++ t)) /\
  (forall s l r t, ritems n s = Some (l, r) -> ritems n (s +++ t) = Some (l, r +++ t)) /\
  (forall s a d r t, rmembers n s a = Some (d, r) -> rmembers n (s +++ t) a = Some (d, r +++ t)).
Proof.
  induction n as [|n [IHv [IHi IHm]]]; [repeat split; intros; discriminate|]. split; [|split].
  - intros s j r t H Hj. cbn [rval] in *. assert (Hs : s <> "") by (intros ->; discriminate).
    destruct (expect quote s) as [s1|] eqn:E1.
    { rewrite (expect_app _ _ _ t E1). destruct (rstring s1) as [[k r1]|] eqn:E; [|discriminate].
      rewrite (rstring_app _ _ _ t E). congruence. }
    rewrite (expect_none_app _ _ t Hs E1). destruct (expect "["%char s) as [s1|] eqn:E2.
    { rewrite (expect_app _ _ _ t E2). assert (Hk : skip_ws s1 <> "").
      { intro Hk. rewrite Hk in H. cbn [expect] in H. rewrite ?ritems_empty, ?rmembers_empty in H. discriminate. }
      rewrite (skip_app _ t Hk). destruct (expect "]"%char (skip_ws s1)) as [r1|] eqn:E3.
      - rewrite (expect_app _ _ _ t E3). congruence.
      - rewrite (expect_none_app _ _ t Hk E3). destruct (ritems n (skip_ws s1)) as [[l r1]|] eqn:E; [|discriminate].
        rewrite (IHi _ _ _ t E). congruence. }
    rewrite (expect_none_app _ _ t Hs E2). destruct (expect "{"%char s) as [s1|] eqn:E3.
    { rewrite (expect_app _ _ _ t E3). assert (Hk : skip_ws s1 <> "").
      { intro Hk. rewrite Hk in H. cbn [expect] in H. rewrite ?ritems_empty, ?rmembers_empty in H. discriminate. }
      rewrite (skip_app _ t Hk). destruct (expect "}"%char (skip_ws s1)) as [r1|] eqn:E4.
      - rewrite (expect_app _ _ _ t E4). congruence.
      - rewrite (expect_none_app _ _ t Hk E4). destruct (rmembers n (skip_ws s1) []) as [[l r1]|] eqn:E; [|discriminate].
        rewrite (IHm _ _ _ _ t E). congruence. }
    rewrite (expect_none_app _ _ t Hs E3).
    destruct (starts_with "null" s) eqn:E4; [destruct (starts_app _ _ t E4) as [-> G]; cbn [String.length] in G; rewrite G; congruence|].
    destruct (starts_with "true" s) eqn:E5.
    { assert (E4' : starts_with "null" (s +++ t) = false) by (apply starts_with_spec in E5 as [u ->]; reflexivity).
      rewrite E4'. destruct (starts_app _ _ t E5) as [-> G]; cbn [String.length] in G; rewrite G; congruence. }
    destruct (starts_with "false" s) eqn:E6.
    { assert (E4' : starts_with "null" (s +++ t) = false /\ starts_with "true" (s +++ t) = false) by (apply starts_with_spec in E6 as [u ->]; split; reflexivity).
      destruct E4' as [-> ->]. destruct (starts_app _ _ t E6) as [-> G]; cbn [String.length] in G; rewrite G; congruence. }
    destruct (rnum_head _ _ _ H) as [c [s' [-> Hc]]]. cbn [append].
    destruct (digit_not_word c (s' +++ t) Hc) as [-> [-> ->]]. change (rnum (String c s' +++ t) = Some (j, r +++ t)).
    apply rnum_app; [exact H|]. destruct Hj as [Hj|Hj]; [|exact Hj]. apply rnum_num in H. congruence.
  - intros s l r t H. cbn [ritems] in *. destruct (rval n s) as [[v r1]|] eqn:E; [|discriminate].
    assert (Hk : skip_ws r1 <> "") by (intro Hk; rewrite Hk in H; discriminate).
    rewrite (IHv _ _ _ t E) by (right; intros ->; apply Hk; reflexivity). rewrite (skip_app _ t Hk).
    destruct (expect "]"%char (skip_ws r1)) as [r2|] eqn:E1; [rewrite (expect_app _ _ _ t E1); congruence|].
    rewrite (expect_none_app _ _ t Hk E1). destruct (expect ","%char (skip_ws r1)) as [r2|] eqn:E2; [|discriminate].
    rewrite (expect_app _ _ _ t E2). assert (Hk2 : skip_ws r2 <> "").
    { intro Hk2. rewrite Hk2, ritems_empty in H. discriminate. }
    rewrite (skip_app _ t Hk2). destruct (ritems n (skip_ws r2)) as [[l2 r3]|] eqn:E3; [|discriminate].
    rewrite (IHi _ _ _ t E3). congruence.
  - intros s a d r t H. cbn [rmembers] in *. destruct (expect quote s) as [s1|] eqn:E; [|discriminate].
    rewrite (expect_app _ _ _ t E). destruct (rstring s1) as [[k r1]|] eqn:E1; [|discriminate].
    rewrite (rstring_app _ _ _ t E1). destruct (expect ":"%char (skip_ws r1)) as [r2|] eqn:E2; [|discriminate].
    rewrite (skip_app _ t (expect_nonempty _ _ _ E2)), (expect_app _ _ _ t E2).
    destruct (rval n (skip_ws r2)) as [[v r3]|] eqn:E3; [|discriminate].
    assert (Hk2 : skip_ws r2 <> "") by (intro Hk2; rewrite Hk2, rval_empty in E3; discriminate).
    assert (Hk3 : skip_ws r3 <> "") by (intro Hk3; rewrite Hk3 in H; discriminate).
    rewrite (skip_app _ t Hk2). rewrite (IHv _ _ _ t E3) by (right; intros ->; apply Hk3; reflexivity).
    rewrite (skip_app _ t Hk3). destruct (expect "}"%char (skip_ws r3)) as [r4|] eqn:E4; [rewrite (expect_app _ _ _ t E4); congruence|].
    rewrite (expect_none_app _ _ t Hk3 E4). destruct (expect ","%char (skip_ws r3)) as [r4|] eqn:E5; [|discriminate].
    rewrite (expect_app _ _ _ t E5). assert (Hk4 : skip_ws r4 <> "").
    { intro Hk4. rewrite Hk4, rmembers_empty in H. discriminate. }
    rewrite (skip_app _ t Hk4). apply IHm. exact H.
Qed.

(** ** more steps do not change the result *)
Lemma reads_more n :
  (forall m s x, (n <= m)%nat -> rval n s = Some x -> rval m s = Some x) /\
  (forall m s x, (n <= m)%nat -> ritems n s = Some x -> ritems m s = Some x) /\
  (forall m s a x, (n <= m)%nat -> rmembers n s a = Some x -> rmembers m s a = Some x).
Proof.
  induction n as [|n [IHv [IHi IHm]]]; [repeat split; intros; discriminate|].
  split; [|split]; intros m; intros; (destruct m as [|m]; [lia|]); assert (Hm : (n <= m)%nat) by lia.
  - cbn [rval] in *. destruct (expect quote s); [assumption|]. destruct (expect "["%char s) as [s1|].
    { destruct (expect "]"%char (skip_ws s1)); [assumption|]. destruct (ritems n (skip_ws s1)) as [y|] eqn:E; [|discriminate].
      rewrite (IHi m _ _ Hm E). assumption. }
    destruct (expect "{"%char s) as [s1|]; [|assumption].
    destruct (expect "}"%char (skip_ws s1)); [assumption|]. destruct (rmembers n (skip_ws s1) []) as [y|] eqn:E; [|discriminate].
    rewrite (IHm m _ _ _ Hm E). assumption.
  - cbn [ritems] in *. destruct (rval n s) as [[v r]|] eqn:E; [|discriminate]. rewrite (IHv m _ _ Hm E).
    destruct (expect "]"%char (skip_ws r)); [assumption|]. destruct (expect ","%char (skip_ws r)) as [r1|]; [|discriminate].
    destruct (ritems n (skip_ws r1)) as [y|] eqn:E1; [|discriminate]. rewrite (IHi m _ _ Hm E1). assumption.
  - cbn [rmembers] in *. destruct (expect quote s) as [s1|]; [|discriminate]. destruct (rstring s1) as [[k r1]|]; [|discriminate].
    destruct (expect ":"%char (skip_ws r1)) as [r2|]; [|discriminate]. destruct (rval n (skip_ws r2)) as [[v r3]|] eqn:E; [|discriminate].
    rewrite (IHv m _ _ Hm E). destruct (expect "}"%char (skip_ws r3)); [assumption|].
    destruct (expect ","%char (skip_ws r3)) as [r4|]; [|discriminate]. apply IHm; [lia|assumption].
Qed.

(** ** a text cut short, and a text with something after it *)
Lemma same_head_num lvl j c s : pjson lvl j = String c s -> is_num j = false -> ~ (is_digit c = true \/ c = "-"%char).
Proof.
  destruct j as [|[|]|z|t|[|v l]|[|[k v] d]]; intros E Hj; try discriminate Hj.
  all: try (cbn [pjson pstring append] in E; injection E as <- <-; intros [H|H]; discriminate).
Qed.
Lemma rval_num n s j r : rval n s = Some (j, r) -> is_num j = true -> exists c s', s = String c s' /\ (is_digit c = true \/ c = "-"%char).
Proof.
  destruct n as [|n]; [discriminate|]. cbn [rval]. intros H Hj.
  destruct (expect quote s) as [s1|]; [destruct (rstring s1) as [[? ?]|]; [injection H as <- <-; discriminate|discriminate]|].
  destruct (expect "["%char s) as [s1|].
  { destruct (expect "]"%char (skip_ws s1)); [injection H as <- <-; discriminate|].
    destruct (ritems n (skip_ws s1)) as [[? ?]|]; [injection H as <- <-; discriminate|discriminate]. }
  destruct (expect "{"%char s) as [s1|].
  { destruct (expect "}"%char (skip_ws s1)); [injection H as <- <-; discriminate|].
    destruct (rmembers n (skip_ws s1) []) as [[? ?]|]; [injection H as <- <-; discriminate|discriminate]. }
  destruct (starts_with "null" s); [injection H as <- <-; discriminate|].
  destruct (starts_with "true" s); [injection H as <- <-; discriminate|].
  destruct (starts_with "false" s); [injection H as <- <-; discriminate|].
  eapply rnum_head, H.
Qed.
Lemma app_cut_empty r t : r +++ t = "" -> t = "".
Proof. destruct r; [auto|discriminate]. Qed.
Lemma cut_unreadable j p t : jwf j -> is_num j = false -> p +++ t = pjson 0 j -> t <> "" -> loads p = None.
Proof.
  intros Hw Hj Hp Ht. unfold loads. destruct p as [|c p]; [reflexivity|].
  assert (Hs := pjson_solid 0 j). rewrite <- Hp in Hs. cbn [append solid] in Hs.
  rewrite (skip_solid (String c p)) by exact Hs.
  destruct (rval (2 * String.length (String c p) + 2) (String c p)) as [[v r]|] eqn:E; [|reflexivity]. exfalso.
  assert (Hv : is_num v = false).
  { destruct (is_num v) eqn:Ev; [|reflexivity]. destruct (rval_num _ _ _ _ E Ev) as [c' [s' [Ec Hc]]]. injection Ec as <- <-.
    destruct (same_head_num 0 j c (p +++ t)); [symmetry; exact Hp|exact Hj|exact Hc]. }
  apply (proj1 (reads_app _) _ _ _ t) in E; [|now left]. rewrite Hp in E.
  set (m := (need j + (2 * String.length (String c p) + 2))%nat).
  apply (proj1 (reads_more _) m) in E; [|unfold m; lia].
  assert (R := pjson_reads j Hw 0%nat m ""). rewrite sapp_nil_r in R. rewrite R in E; [|unfold m; lia|exact I].
  assert (Er : r +++ t = "") by congruence. exact (Ht (app_cut_empty _ _ Er)).
Qed.
Lemma tail_unreadable j t : jwf j -> stop t -> skip_ws t <> "" -> loads (pjson 0 j +++ t) = None.
Proof.
  intros Hw Ht Hs. unfold loads. rewrite skip_solid by apply solid_app, pjson_solid.
  rewrite (pjson_reads j Hw 0%nat); [|rewrite slen_app; assert (G := need_len j 0); lia|exact Ht].
  destruct (String.eqb_spec (skip_ws t) ""); congruence.
Qed.
(** the same without conditions on the first character of the rest, for texts
    that do not end with a number *)
Lemma tail_unreadable' j t : jwf j -> is_num j = false -> skip_ws t <> "" -> loads (pjson 0 j +++ t) = None.
Proof.
  intros Hw Hj Hs. unfold loads. rewrite skip_solid by apply solid_app, pjson_solid.
  assert (R := pjson_reads j Hw 0%nat (2 * String.length (pjson 0 j +++ t) + 2) ""). rewrite sapp_nil_r in R.
  assert (R2 : rval (2 * String.length (pjson 0 j +++ t) + 2) (pjson 0 j) = Some (j, "")).
  { apply R; [rewrite slen_app; assert (G := need_len j 0); lia|exact I]. }
  apply (proj1 (reads_app _) _ _ _ t) in R2; [|now left]. rewrite R2. cbn [append].
  destruct (String.eqb_spec (skip_ws t) ""); congruence.
Qed.
Lemma skip_ws_last s c : is_ws c = false -> skip_ws (s +++ String c "") <> "".
Proof.
  intro H. unfold skip_ws. induction s as [|a s IH]; cbn [append lstrip].
  - rewrite H. discriminate.
  - destruct (is_ws a); [exact IH|discriminate].
Qed.

(** ** the two library calls on examples *)
Example ex_dumps : dumps (JObj [("b", JArr [JNum (-5); JStr "x"]); ("a", JObj []); ("A", JBool true)]) =
"{
    ""A"": true,
    ""a"": {},
    ""b"": [
        -5,
        ""x""
    ]
}".
Proof. reflexivity. Qed.
Example ex_loads : loads " { ""b"" : [1 , -20,null], ""a"":""q\u0041\n\\"" , ""b"":{} }" =
  Some (JObj [("b", JObj []); ("a", JStr ("qA" +++ String (chr 10) (String backslash "")))]) /\
  loads "{""a"": 01}" = None /\ loads "[1,]" = None /\ loads "" = None /\ loads "{" = None /\ loads "1 2" = None.
Proof. repeat split. Qed.
