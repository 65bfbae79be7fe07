(** * Property C92: source fields whose number of values differs from the number
    of source coordinates (scipy_interpolation_lib.py:523-563). *)
From Verif Require Import Base Num Scipy Spec_Interp Spec_Scipy Base_P Scipy_P Props_Scipy.
Local Open Scope Qc_scope.

(** the full claim: such a field is refused. Refuted *)
Definition C92_full : Prop := forall (Loc : Type) (dist : Loc -> nat -> Qc) n tree mub values rows,
  kdtree dist n tree -> values <> n -> scipy_invdist tree (Fin mub) n values rows = Raise (AppExc 9000).

Lemma index_over zsize l : (forall i, In i l -> (i < zsize)%nat) -> mapM (py_index (repeat tt zsize)) (map Z.of_nat l) = Ok (map (fun _ => tt) (map Z.of_nat l)).
Proof. intro H. apply (mapM_fun _ (fun _ => tt)). intros z Hz. apply in_map_iff in Hz. destruct Hz as [i [<- Hi]]. apply py_index_unit. now apply H. Qed.
Lemma index_fails zsize l i : In i l -> (zsize <= i)%nat -> mapM (py_index (repeat tt zsize)) (map Z.of_nat l) = Raise IndexError.
Proof.
  induction l as [|j l IH]; intros Hi Hz; [contradiction|]. cbn [map mapM]. rewrite py_index_nat. destruct (nth_error (repeat tt zsize) j) as [u|] eqn:E; cbn [rbind].
  - destruct Hi as [-> |Hi]; [|now rewrite IH]. exfalso. rewrite (proj2 (nth_error_None _ _)) in E; [discriminate|]. rewrite repeat_length. exact Hz.
  - reflexivity.
Qed.
Lemma cell_cases {Loc} (dist : Loc -> nat -> Qc) n tree mub zsize p : kdtree dist n tree -> (4 <= n)%nat -> exists l, closest dist n 4 p l /\
  ((forall i, In i l -> (i < zsize)%nat) /\ invdist_cell (Fin mub) zsize (tree 4%nat p) = Ok (invdist_weights (Fin mub) (tree 4%nat p), invdist_indexes (Fin mub) zsize (tree 4%nat p)) \/
   (exists i, In i l /\ (zsize <= i)%nat) /\ invdist_cell (Fin mub) zsize (tree 4%nat p) = Raise IndexError).
Proof.
  intros K Hn. destruct (kdtree_four dist n tree 4 p K Hn) as (l & C & E). exists l. split; [exact C|].
  assert (M : map snd (tree 4%nat p) = map Z.of_nat l) by (rewrite E, map_map; reflexivity).
  unfold invdist_cell. rewrite M.
  destruct (Forall_Exists_dec (fun i => (i < zsize)%nat) (fun i => lt_dec i zsize) l) as [F|F].
  - left. rewrite Forall_forall in F. split; [exact F|]. now rewrite index_over.
  - right. apply Exists_exists in F. destruct F as (i & Hi & Hlt). split; [exists i; split; [exact Hi|lia]|]. rewrite (index_fails zsize l i Hi) by lia. reflexivity.
Qed.

(** more values than coordinates: never refused, the superfluous values are not
    looked at *)
Theorem C92_more : forall (Loc : Type) (dist : Loc -> nat -> Qc) n tree mub values rows, kdtree dist n tree -> (4 <= n <= values)%nat ->
  scipy_invdist tree (Fin mub) n values rows =
    Ok (Mat (map (fun p => (invdist_weights (Fin mub) (tree 4%nat p), invdist_indexes (Fin mub) values (tree 4%nat p))) (List.concat rows))).
Proof.
  intros Loc dist n tree mub values rows K Hn. unfold scipy_invdist, check_counts. replace (if Nat.eqb n values then Ok tt else Ok tt) with (Ok tt) by (destruct (Nat.eqb n values); reflexivity).
  cbn [rbind]. unfold interpolate_whole, part_invdist. erewrite (mapM_fun _ (fun p => (invdist_weights (Fin mub) (tree 4%nat p), invdist_indexes (Fin mub) values (tree 4%nat p)))); [reflexivity|].
  intros p _. destruct (cell_cases dist n tree mub values p K ltac:(lia)) as (l & (_ & _ & C & _) & [[_ E]|[(i & Hi & Hv) _]]); [exact E|]. specialize (C i Hi). lia.
Qed.
(** fewer values than coordinates: refused (with IndexError) exactly if one of
    the four nearest points of a cell has no value *)
Theorem C92_fewer_partial : forall (Loc : Type) (dist : Loc -> nat -> Qc) n tree mub values rows, kdtree dist n tree -> (4 <= n)%nat ->
  ((exists p ds i, In p (List.concat rows) /\ In (ds, Z.of_nat i) (tree 4%nat p) /\ (values <= i)%nat) /\
     scipy_invdist tree (Fin mub) n values rows = Raise IndexError) \/
  ((forall p ds i, In p (List.concat rows) -> In (ds, Z.of_nat i) (tree 4%nat p) -> (i < values)%nat) /\
     exists t, scipy_invdist tree (Fin mub) n values rows = Ok t).
Proof.
  intros Loc dist n tree mub values rows K Hn. unfold scipy_invdist, check_counts. replace (if Nat.eqb n values then Ok tt else Ok tt) with (Ok tt) by (destruct (Nat.eqb n values); reflexivity).
  cbn [rbind]. unfold interpolate_whole, part_invdist. induction (List.concat rows) as [|p ps IH].
  - right. split; [intros p ds i []|]. eexists. reflexivity.
  - cbn [mapM]. destruct (kdtree_four dist n tree 4 p K Hn) as (l & C & E). assert (M : map snd (tree 4%nat p) = map Z.of_nat l) by (rewrite E, map_map; reflexivity).
    destruct (Forall_Exists_dec (fun i => (i < values)%nat) (fun i => lt_dec i values) l) as [F|F].
    + rewrite Forall_forall in F. assert (Ec : exists c, invdist_cell (Fin mub) values (tree 4%nat p) = Ok c).
      { unfold invdist_cell. rewrite M, index_over by exact F. eexists. reflexivity. }
      destruct Ec as (c & ->). cbn [rbind]. destruct IH as [[(q & ds & i & Hq & Hi & Hv) R]|[A (t & R)]].
      * left. split; [exists q, ds, i; split; [now right|auto]|]. destruct (mapM _ ps); cbn [rbind] in *; [discriminate|congruence].
      * right. split.
        -- intros q ds i [<- |Hq] Hi; [|now apply (A q ds i)]. rewrite E in Hi. apply in_map_iff in Hi. destruct Hi as (j & Hj & Hin). injection Hj as _ Hz. apply Nat2Z.inj in Hz. subst. now apply F.
        -- destruct (mapM _ ps) as [rs|]; cbn [rbind] in *; [|discriminate]. eexists. reflexivity.
    + apply Exists_exists in F. destruct F as (i & Hi & Hv). left. split.
      * exists p, (Fin (dist p i)), i. split; [now left|]. split; [|lia]. rewrite E. apply in_map_iff. exists i. auto.
      * unfold invdist_cell. rewrite M, (index_fails values l i Hi) by lia. reflexivity.
Qed.
Theorem C92_refuted : ~ C92_full.
Proof.
  intro H. specialize (H Qc line 6%nat (exhaustive line 6) (ZQ 2) 7%nat ex_rows (exhaustive_kdtree line 6) ltac:(discriminate)).
  rewrite (C92_more Qc line 6 (exhaustive line 6) (ZQ 2) 7 ex_rows (exhaustive_kdtree line 6) ltac:(lia)) in H. discriminate H.
Qed.
(** both cases of fewer values occur *)
Example C92_nonvacuous : is_ok (scipy_invdist (exhaustive line 6) (nint 2) 6 5 [[ZQ 0; ZQ 1]]) = true /\
  scipy_invdist (exhaustive line 6) (nint 2) 6 5 ex_rows = Raise IndexError.
Proof. split; vm_compute; reflexivity. Qed.
Print Assumptions C92_more.
Print Assumptions C92_fewer_partial.
Print Assumptions C92_refuted.
