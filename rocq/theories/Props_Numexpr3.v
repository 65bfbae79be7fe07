(** * Property C120: how the conversion texts are read (Numexpr.v,
    Converter.v). *)
From Coq Require Import Lia List.
From Verif Require Import Base Num PyStr Float64 Converter Aggregator Numexpr Spec_Numexpr.
Import ListNotations.
Local Open Scope string_scope.
Local Open Scope Z_scope.

(** a name in a formula *)
Inductive mentions (n : string) : expr -> Prop :=
| mentions_var : mentions n (EVar n)
| mentions_neg e : mentions n e -> mentions n (ENeg e)
| mentions_l o a b : mentions n a -> mentions n (EBin o a b)
| mentions_r o a b : mentions n b -> mentions n (EBin o a b).

(** ** a formula with another name than x is refused *)
Theorem C120_names : forall f e n cut mv a, f <> "" -> f <> "x=x" ->
  parse_text (replace "x=" "" f) = Some e -> mentions n e -> n <> "x" ->
  convert ev64 (set_missing_value (converter_new (Some f) cut) mv) a = Raise OtherError.
Proof.
  intros f e n cut mv a H1 H2 Hp Hm Hn.
  assert (F : only_names ["x"] e = false).
  { clear Hp. induction Hm as [|e H IH|o a' b H IH|o a' b H IH]; cbn [only_names existsb].
    - destruct (String.eqb_spec n "x"); [contradiction|reflexivity].
    - exact IH.
    - rewrite IH. reflexivity.
    - rewrite IH. apply Bool.andb_false_r. }
  unfold convert. cbn [cv_func set_missing_value converter_new].
  destruct (String.eqb_spec f ""); [contradiction|]. destruct (String.eqb_spec f "x=x"); [contradiction|].
  unfold ev64. rewrite Hp, F. reflexivity.
Qed.
Print Assumptions C120_names.

(** ** the grammar: sums of products of signed factors, from the left.
    [reads l ts e]: the tokens [ts] are a sum (l = 0), a product (l = 1) or a
    factor (l = 2) and mean [e] *)
Definition sign_of (o : binop) : string := match o with Add => "+" | Sub => "-" | Mul => "*" | Div => "/" end.
Definition level_of (o : binop) : nat := match o with Add | Sub => 0%nat | Mul | Div => 1%nat end.
Definition symbol (s : string) : tok := match s with String c "" => TSym c | _ => TName s end.

Inductive reads : nat -> list tok -> expr -> Prop :=
| reads_number m d p : reads 2 [TNum m d p] (ENum m d p)
| reads_name s : reads 2 [TName s] (EVar s)
| reads_minus ts e : reads 2 ts e -> reads 2 (symbol "-" :: ts) (ENeg e)
| reads_group ts e : reads 0 ts e -> reads 2 (symbol "(" :: ts ++ [symbol ")"]) e
| reads_product ts e : reads 2 ts e -> reads 1 ts e
| reads_sum ts e : reads 1 ts e -> reads 0 ts e
| reads_op o ts ts' a b : reads (level_of o) ts a -> reads (S (level_of o)) ts' b ->
    reads (level_of o) (ts ++ symbol (sign_of o) :: ts') (EBin o a b).

Lemma code_sym c s : code c = code s -> c = s.
Proof.
  unfold code. intro H. apply Nat2Z.inj in H. rewrite <- (ascii_nat_embedding c), <- (ascii_nat_embedding s). now rewrite H.
Qed.
Lemma op_of_spec level c o : (level <= 1)%nat -> op_of level c = Some o -> level_of o = level /\ TSym c = symbol (sign_of o).
Proof.
  intros Hl. destruct level as [|[|level]]; [| |lia]; cbn [op_of]; intro H;
  repeat (match goal with H : (if ?b then _ else _) = Some _ |- _ => destruct b eqn:?E end); try discriminate; injection H as <-;
    (split; [reflexivity|]); apply Z.eqb_eq in E || apply Z.eqb_eq in E0; cbn [sign_of symbol]; f_equal; apply code_sym; first [exact E0|exact E].
Qed.

Lemma parse_sound fuel :
  (forall level ts e r, (level <= 2)%nat -> parse fuel level ts = Some (e, r) -> exists used, ts = (used ++ r)%list /\ reads level used e) /\
  (forall level e0 u0 ts e r, (level <= 1)%nat -> reads level u0 e0 -> parse_more fuel level e0 ts = Some (e, r) ->
     exists used, ts = (used ++ r)%list /\ reads level (u0 ++ used)%list e).
Proof.
  induction fuel as [|f [IH1 IH2]]; [split; intros; discriminate|]. split.
  - intros level ts e r Hl H. cbn [parse] in H. destruct level as [|[|[|level]]]; [| | |lia].
    + destruct (parse f 1 ts) as [[e1 r1]|] eqn:E1; [|discriminate]. apply IH1 in E1 as [u1 [-> R1]]; [|lia].
      apply (IH2 0%nat e1 u1) in H as [u2 [-> R2]]; [|lia|now constructor]. exists (u1 ++ u2)%list. split; [now rewrite app_assoc|exact R2].
    + destruct (parse f 2 ts) as [[e1 r1]|] eqn:E1; [|discriminate]. apply IH1 in E1 as [u1 [-> R1]]; [|lia].
      apply (IH2 1%nat e1 u1) in H as [u2 [-> R2]]; [|lia|now constructor]. exists (u1 ++ u2)%list. split; [now rewrite app_assoc|exact R2].
    + destruct ts as [|[m d p|s|c] ts]; [discriminate| | |].
      * injection H as <- <-. exists [TNum m d p]. split; [reflexivity|constructor].
      * injection H as <- <-. exists [TName s]. split; [reflexivity|constructor].
      * destruct (Z.eqb_spec (code c) 45) as [Ec|_].
        -- destruct (parse f 2 ts) as [[e1 r1]|] eqn:E1; [|discriminate]. injection H as <- <-. apply IH1 in E1 as [u1 [-> R1]]; [|lia].
           assert (c = "-"%char) by (apply code_sym; exact Ec). subst c. exists (symbol "-" :: u1). split; [reflexivity|now constructor].
        -- destruct (Z.eqb_spec (code c) 40) as [Ec|_]; [|discriminate].
           destruct (parse f 0 ts) as [[e1 [|[ | |c'] r1]]|] eqn:E1; try discriminate. destruct (Z.eqb_spec (code c') 41) as [Ec'|_]; [|discriminate].
           injection H as <- <-. apply IH1 in E1 as [u1 [-> R1]]; [|lia].
           assert (c = "("%char) by (apply code_sym; exact Ec). assert (c' = ")"%char) by (apply code_sym; exact Ec'). subst c c'.
           exists (symbol "(" :: u1 ++ [symbol ")"])%list. split; [cbn [app]; now rewrite <- app_assoc|now constructor].
  - intros level e0 u0 ts e r Hl H0 H. cbn [parse_more] in H.
    assert (Hstop : Some (e0, ts) = Some (e, r) -> exists used, ts = (used ++ r)%list /\ reads level (u0 ++ used)%list e).
    { intro E. injection E as <- <-. exists []. split; [reflexivity|]. now rewrite app_nil_r. }
    destruct ts as [|[m d p|s|c] ts]; [auto|auto|auto|].
    destruct (op_of level c) as [o|] eqn:Eo; [|auto]. destruct (op_of_spec _ _ _ Hl Eo) as [El Es].
    destruct (parse f (S level) ts) as [[e1 r1]|] eqn:E1; [|discriminate]. apply IH1 in E1 as [u1 [-> R1]]; [|lia].
    apply (IH2 level (EBin o e0 e1) (u0 ++ TSym c :: u1)%list) in H as [u2 [-> R2]]; [| exact Hl|].
    + exists (TSym c :: u1 ++ u2)%list. split; [cbn [app]; now rewrite <- app_assoc|]. rewrite <- app_assoc in R2. exact R2.
    + subst level. rewrite Es. now apply reads_op.
Qed.

(** ** a text is read by Python's precedence, from the left *)
Theorem C120_grammar : forall text e, parse_text text = Some e -> exists ts, tokens (S (String.length text)) text = Some ts /\ reads 0 ts e.
Proof.
  intros text e H. unfold parse_text in H. destruct (tokens _ text) as [ts|]; [|discriminate]. exists ts. split; [reflexivity|].
  destruct (parse _ 0 ts) as [[e' [|]]|] eqn:E; try discriminate. injection H as <-.
  destruct (proj1 (parse_sound _) 0%nat _ _ _ (le_S _ _ (le_S _ _ (le_n 0))) E) as [u [-> R]]. now rewrite app_nil_r.
Qed.
Print Assumptions C120_grammar.

Example C120_grammar_nonvacuous :
  (exists e, parse_text "1 - x - 2*(x + -3)" = Some e /\
   e = EBin Sub (EBin Sub (ENum 1 0 false) (EVar "x")) (EBin Mul (ENum 2 0 false) (EBin Add (EVar "x") (ENeg (ENum 3 0 false))))) /\
  (exists e, parse_text (replace "x=" "" "x=y-273.15") = Some e /\ mentions "y" e /\ "y" <> "x").
Proof.
  split; eexists; (split; [vm_compute; reflexivity|]); [reflexivity|]. split; [apply mentions_l; constructor|discriminate].
Qed.
