(** * Converter: model of src/pyg2p/main/manipulation/conversion.py and of
    [Messages] (src/pyg2p/__init__.py:146-209) *)
From Verif Require Import Base Num PyStr Aggregator.
Local Open Scope Z_scope.

(** numexpr: the cell-wise function denoted by an expression in [x]; [None]
    when the text is not a valid expression. External, hence a parameter of
    every definition that evaluates an expression. (Substituting the text in
    [where(x!=mv, TEXT, mv)] is assumed to be compositional.) *)
Definition numexpr := string -> option (num -> num).

(** conversion.py:7-22: attributes. [cv_func = None] stands for None. *)
Record converter := mkConverter { cv_func : option string; cv_cut : bool; cv_mv : num }.

(** conversion.py:7-22 [__init__] ([_mv = -1] until set) *)
Definition converter_new (func : option string) (cut_off : bool) : converter :=
  mkConverter func cut_off (nint (-1)).
(** conversion.py:27-28 *)
Definition set_missing_value (c : converter) (mv : num) : converter := mkConverter (cv_func c) (cv_cut c) mv.

(** [where(x!=mv, f(x), mv)] on one cell *)
Definition where_mv (f : num -> num) (mv x : num) : num := if negb (neqb x mv) then f x else mv.

(** conversion.py:34-43 [convert] (with the expression built at line 22). With
    no function at all [_numexpr_eval] does not exist: AttributeError. *)
Definition convert (ev : numexpr) (c : converter) (x : arr) : res arr :=
  match cv_func c with
  | None => Raise AttributeError
  | Some f =>
      if String.eqb f "" then Raise AttributeError
      else if String.eqb f "x=x" then Ok x
      else match ev (replace "x=" "" f) with
           | None => Raise OtherError
           | Some g =>
               let d := map (where_mv g (cv_mv c)) (adata x) in
               Ok (match x with
                   | Nd _ => Nd d
                   | Ma _ m => masked_where m d
                   end)
           end
  end.

(** [where(values<0, 0, values)] on one cell *)
Definition cut_cell (x : num) : num := if nltb x (nint 0) then nint 0 else x.
(** conversion.py:45-54 [cut_off_negative] on one array: a plain array results *)
Definition cut_off_arr (a : arr) : arr := Nd (map cut_cell (adata a)).
(** conversion.py:45-54 on a dict of fields *)
Definition cut_off_fields (xs : fields) : fields := map (fun kv => (fst kv, cut_off_arr (snd kv))) xs.

(** src/pyg2p/__init__.py:146-161 [Messages]: the attributes used by the conversion *)
Record messages := mkMessages { m_first : fields; m_second : fields; m_mv : num; m_unit : string }.

Definition convert_fields (ev : numexpr) (c : converter) (xs : fields) : res fields :=
  mapM (fun kv => do a <- convert ev c (snd kv); Ok (fst kv, a)) xs.

(** src/pyg2p/__init__.py:199-206 [apply_conversion] *)
Definition apply_conversion (ev : numexpr) (c : converter) (m : messages) : res messages :=
  let c := set_missing_value c (m_mv m) in
  do f <- convert_fields ev c (m_first m);
  do s <- convert_fields ev c (m_second m);
  Ok (mkMessages f s (m_mv m) (m_unit m)).

(** src/pyg2p/__init__.py:208-209 [__len__] *)
Definition messages_len (m : messages) : nat := (List.length (m_first m) + List.length (m_second m))%nat.
