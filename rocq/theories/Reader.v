(** * Reader: model of src/pyg2p/main/readers/grib.py and of the Messages and
    GribGridDetails classes of src/pyg2p/__init__.py *)
From Verif Require Import Base Num PyStr Config Context Aggregator Writers.
Local Open Scope string_scope.

(** ** GRIB messages, as seen through eccodes *)
(** A message: its integer and text keys ([codes_get]), its floating point keys
    ([codes_get_double]), the keys that are encoded as missing
    ([codes_is_missing]), its [values] and its [bitmap] array. *)
Record gmsg := mkGmsg
  { gm_keys : list (string * json); gm_dbl : list (string * num); gm_missing : list string;
    gm_values : list num; gm_bitmap : list Z }.

(** [codes_get(g, k)] of an integer key; an absent key raises
    KeyValueNotFoundError of eccodes *)
Definition kint (m : gmsg) (k : string) : res Z :=
  match dget String.eqb (gm_keys m) k with Some (JNum z) => Ok z | _ => Raise OtherError end.
Definition kstr (m : gmsg) (k : string) : res string :=
  match dget String.eqb (gm_keys m) k with Some (JStr s) => Ok s | _ => Raise OtherError end.
Definition kdbl (m : gmsg) (k : string) : res num :=
  match dget String.eqb (gm_dbl m) k with Some x => Ok x | None => Raise OtherError end.

(** ** Open handles *)
(** [w_live]: the message handles that are open; [w_bad]: ghost flag, set when a
    handle is read or released while it is not open; [w_index], [w_files]:
    number of open indexes and file handlers. Handles are numbered as they are
    opened and never reused. *)
Record world := mkWorld
  { w_next : Z; w_live : list (Z * gmsg); w_bad : bool; w_index : nat; w_files : nat }.
Definition world0 : world := mkWorld 1 [] false 0 0.

(** codes_new_from_index, codes_new_from_file on an available message *)
Definition w_open (m : gmsg) (w : world) : Z * world :=
  (w_next w, mkWorld (w_next w + 1) (w_live w ++ [(w_next w, m)])%list (w_bad w) (w_index w) (w_files w)).
(** codes_release *)
Definition w_release (g : Z) (w : world) : world :=
  if dmem Z.eqb (w_live w) g
  then mkWorld (w_next w) (ddel Z.eqb (w_live w) g) (w_bad w) (w_index w) (w_files w)
  else mkWorld (w_next w) (w_live w) true (w_index w) (w_files w).
(** reading a key or the values of an open handle *)
Definition w_deref (g : Z) (w : world) : res gmsg * world :=
  match dget Z.eqb (w_live w) g with
  | Some m => (Ok m, w)
  | None => (Raise OtherError, mkWorld (w_next w) (w_live w) true (w_index w) (w_files w))
  end.
Fixpoint w_derefs (gs : list Z) (w : world) : res (list (Z * gmsg)) * world :=
  match gs with
  | [] => (Ok [], w)
  | g :: r => match w_deref g w with
              | (Raise e, w) => (Raise e, w)
              | (Ok m, w) => match w_derefs r w with
                             | (Raise e, w) => (Raise e, w)
                             | (Ok l, w) => (Ok ((g, m) :: l), w)
                             end
              end
  end.
Definition w_releases (gs : list Z) (w : world) : world := fold_left (fun w g => w_release g w) gs w.

(** ** The reader object *)
(** A GRIB file: can eccodes index it, and the messages in it. *)
Record gfile := mkGfile { gf_indexable : bool; gf_msgs : list gmsg }.

(** grib.py:24-47 attributes. [r_index]: the index ([Some w_perturb]) or None;
    [r_file]: the messages not read yet from the file handler, or None;
    [r_sel]: _selected_grbs (None after close). *)
Record reader := mkReader
  { r_index : option bool; r_file : option (list gmsg); r_msgs : list gmsg;
    r_sel : option (list Z); r_step : Z; r_step2 : Z; r_change : string;
    r_main : option Z; r_ext : option Z }.

(** grib.py:24-47 __init__; [None] is a path without a file: indexing fails
    with GribInternalError, then [open] with FileNotFoundError *)
Definition reader_new (f : option gfile) (w_perturb : bool) (w : world) : res reader * world :=
  match f with
  | None => (Raise FileNotFoundError, w)
  | Some f =>
      if gf_indexable f
      then (Ok (mkReader (Some w_perturb) None (gf_msgs f) (Some []) (-1) (-1) "" None None),
            mkWorld (w_next w) (w_live w) (w_bad w) (S (w_index w)) (w_files w))
      else (Ok (mkReader None (Some (gf_msgs f)) (gf_msgs f) (Some []) (-1) (-1) "" None None),
            mkWorld (w_next w) (w_live w) (w_bad w) (w_index w) (S (w_files w)))
  end.

(** grib.py:118-126, 128-136: open each message, keep those accepted by [_find]
    and release the others. Returns the kept handles and the messages not read. *)
Fixpoint scan (sel : selection) (ms : list gmsg) (w : world) : res (list Z) * list gmsg * world :=
  match ms with
  | [] => (Ok [], [], w)
  | m :: r =>
      let '(g, w) := w_open m w in
      match find (gm_keys m) sel with
      | Raise e => (Raise e, r, w)
      | Ok true => match scan sel r w with
                   | (Ok gs, rest, w) => (Ok (g :: gs), rest, w)
                   | x => x
                   end
      | Ok false => scan sel r (w_release g w)
      end
  end.

(** [str(v)] of a short name *)
Definition jstr (v : json) : res string :=
  match v with JStr s => Ok s | JNum z => Ok (str_of_Z z) | _ => Raise OtherError end.

(** codes_index_select: the messages of the file with that short name (and
    that perturbation number), in file order *)
Definition in_index (sn : string) (pert : option Z) (m : gmsg) : bool :=
  (match dget String.eqb (gm_keys m) "shortName" with Some (JStr s) => String.eqb s sn | _ => false end
   && match pert with
      | None => true
      | Some p => match dget String.eqb (gm_keys m) "perturbationNumber" with Some (JNum z) => Z.eqb z p | _ => false end
      end)%bool.

(** grib.py:110, 116-117: the perturbation number of the selection; [int(v)] *)
Definition sel_pert (sel : selection) : res (option Z) :=
  match dget String.eqb sel "perturbationNumber" with
  | None => Ok None
  | Some (SVal v) => if jeq v (JNum (-1)) then Ok None else do z <- jint v; Ok (Some z)
  | Some _ => Raise TypeError
  end.

(** grib.py:109, 111-112 the short names to look for; kwargs without shortName: KeyError *)
Definition sel_names (sel : selection) : res (list json) :=
  match dget String.eqb sel "shortName" with
  | None => Raise KeyError
  | Some (SVal v) => Ok [v]
  | Some (SList l) => Ok l
  | Some (SFun _) => Raise OtherError
  end.

(** grib.py:114-126: loop over the short names with the index. Selecting a key
    the index was not built with is an error of eccodes. *)
Fixpoint scan_names (sel : selection) (w_perturb : bool) (ms : list gmsg) (names : list json) (w : world)
  : res (list Z) * world :=
  match names with
  | [] => (Ok [], w)
  | v :: r =>
      match (do s <- jstr v; do p <- sel_pert sel;
             match p with Some _ => if w_perturb then Ok (s, p) else Raise OtherError | None => Ok (s, p) end) with
      | Raise e => (Raise e, w)
      | Ok (s, p) =>
          match scan sel (filter (in_index s p) ms) w with
          | (Raise e, _, w) => (Raise e, w)
          | (Ok gs, _, w) => match scan_names sel w_perturb ms r w with
                             | (Ok gs', w) => (Ok (gs ++ gs')%list, w)
                             | x => x
                             end
          end
      end
  end.

Definition set_file (r : reader) (f : option (list gmsg)) : reader :=
  mkReader (r_index r) f (r_msgs r) (r_sel r) (r_step r) (r_step2 r) (r_change r) (r_main r) (r_ext r).

(** grib.py:107-137 scan_grib *)
Definition scan_grib (sel : selection) (r : reader) (w : world) : res (list Z) * (reader * world) :=
  match sel_names sel with
  | Raise e => (Raise e, (r, w))
  | Ok names =>
      match r_index r, r_file r with
      | Some wp, _ => let '(x, w) := scan_names sel wp (r_msgs r) names w in (x, (r, w))
      | None, Some ms => let '(x, rest, w) := scan sel ms w in (x, (set_file r (Some rest), w))
      | None, None => (Ok [], (r, w))
      end
  end.

(** grib.py:142-143: the retry is done when startStep is a function that
    rejects 0 *)
Definition retry_sel (sel : selection) : option selection :=
  match dget String.eqb sel "startStep" with
  | Some (SFun f) => if f 0%Z then None else Some (dset String.eqb sel "startStep" (SFun (fun s => Z.leb 0 s)))
  | _ => None
  end.

(** grib.py:139-147 _get_gids: [ValueError] becomes NO_MESSAGES *)
Definition no_value_error {A} (x : res A) : res A :=
  match x with Raise ValueError => Raise (AppExc 3000) | y => y end.
Definition get_gids (sel : selection) (r : reader) (w : world) : res (list Z) * (reader * world) :=
  match scan_grib sel r w with
  | (Ok [], (r, w)) =>
      match retry_sel sel with
      | Some sel' => let '(x, rw) := scan_grib sel' r w in (no_value_error x, rw)
      | None => (Ok [], (r, w))
      end
  | (x, rw) => (no_value_error x, rw)
  end.

(** ** Grids: src/pyg2p/__init__.py:76-143 *)
(** ['%.4f' % x] for a float given by its exact value: correctly rounded, ties
    to even. (Negative zero is not represented.) *)
Definition digits4 (z : Z) : string :=
  let s := str_of_Z z in srepeat "0"%char (4 - String.length s) +++ s.
Definition fmt4 (x : num) : string :=
  match x with
  | Fin q => let n := around (q * ZQ 10000)%Qc in
             let a := Z.abs n in
             (if Qc_ltb q 0 then "-" else "") +++ str_of_Z (a / 10000) +++ "." +++ digits4 (a mod 10000)
  | PInf => "inf" | MInf => "-inf" | NaN => "nan"
  end.
Definition fmt_long (x : num) : string := rstrip (Ascii.eqb ".") (rstrip (Ascii.eqb "0") (fmt4 x)).

(** a grid: the handle it was read from, its identifier and Nj *)
Record grid := mkGrid { g_gid : Z; g_id : string; g_nj : option Z }.

Definition opt_int (m : gmsg) (k : string) : option Z :=
  match dget String.eqb (gm_keys m) k with Some (JNum z) => Some z | _ => None end.
Definition show_opt_int (o : option Z) : string := match o with Some z => str_of_Z z | None => "None" end.
Definition show_opt_str (m : gmsg) (k : string) : string :=
  match dget String.eqb (gm_keys m) k with Some (JStr s) => s | _ => "None" end.
(** __init__.py:85-91 [_missing_keys]: encoded as missing, or absent *)
Definition key_missing (m : gmsg) (k : string) : bool :=
  (existsb (String.eqb k) (gm_missing m)
   || negb (dmem String.eqb (gm_keys m) k || dmem String.eqb (gm_dbl m) k))%bool.

(** __init__.py:104-111 _build_id ([None] formatted with %.4f raises TypeError) *)
Definition build_id (m : gmsg) : res string :=
  let ni := if key_missing m "Ni" then "M" else show_opt_int (opt_int m "Ni") in
  let nj := if key_missing m "Nj" then "M" else show_opt_int (opt_int m "Nj") in
  match dget String.eqb (gm_dbl m) "longitudeOfFirstGridPointInDegrees" with
  | None => Raise TypeError
  | Some x =>
      do last <- (if key_missing m "longitudeOfLastGridPointInDegrees" then Ok "M"
                  else match dget String.eqb (gm_dbl m) "longitudeOfLastGridPointInDegrees" with
                       | Some y => Ok (fmt_long y) | None => Raise TypeError end);
      Ok (fmt_long x +++ "$" +++ last +++ "$" +++ ni +++ "$" +++ nj +++ "$"
          +++ show_opt_int (opt_int m "numberOfValues") +++ "$" +++ show_opt_str m "gridType")
  end.

(** __init__.py:76-102 GribGridDetails.__init__ *)
Definition grid_details (g : Z) (m : gmsg) : res grid :=
  do i <- build_id m; Ok (mkGrid g i (opt_int m "Nj")).

(** ** Reference dates: __init__.py:157 strptime(..., '%Y%m%d%H') *)
(** The regular expression of %m is 1[0-2]|0[1-9]|[1-9], of %d
    3[0-1]|[1-2]\d|0[1-9]|[1-9], of %H 2[0-3]|[0-1]\d|\d and of %Y
    \d\d\d\d: every way to read a prefix, in the order the matcher tries them. *)
Definition dig (c : ascii) : option Z := if is_digit c then Some (Z.of_nat (code c) - 48)%Z else None.
Definition two (ok : Z -> bool) (s : string) : list (Z * string) :=
  match s with
  | String a (String b r) =>
      match dig a, dig b with
      | Some x, Some y => if ok (10 * x + y)%Z then [((10 * x + y)%Z, r)] else []
      | _, _ => []
      end
  | _ => []
  end.
Definition one (ok : Z -> bool) (s : string) : list (Z * string) :=
  match s with
  | String a r => match dig a with Some x => if ok x then [(x, r)] else [] | None => [] end
  | _ => []
  end.
Definition between (lo hi z : Z) : bool := (Z.leb lo z && Z.leb z hi)%bool.
Definition p_year (s : string) : list (Z * string) :=
  match s with
  | String a (String b (String c (String d r))) =>
      match dig a, dig b, dig c, dig d with
      | Some w, Some x, Some y, Some z => [((1000 * w + 100 * x + 10 * y + z)%Z, r)]
      | _, _, _, _ => []
      end
  | _ => []
  end.
Definition p_month (s : string) := (two (between 10 12) s ++ two (between 1 9) s ++ one (between 1 9) s)%list.
Definition p_day (s : string) :=
  (two (between 30 31) s ++ two (between 10 29) s ++ two (between 1 9) s ++ one (between 1 9) s)%list.
Definition p_hour (s : string) := (two (between 20 23) s ++ two (between 0 19) s ++ one (between 0 9) s)%list.

Definition leap (y : Z) : bool := ((y mod 4 =? 0) && (negb (y mod 100 =? 0) || (y mod 400 =? 0)))%Z%bool.
Definition days_in_month (y m : Z) : Z :=
  (if m =? 2 then (if leap y then 29 else 28)
   else if (m =? 4) || (m =? 6) || (m =? 9) || (m =? 11) then 30 else 31)%Z%bool.

Record date := mkDate { d_year : Z; d_month : Z; d_day : Z; d_hour : Z }.

(** the first way to match; characters left over, or a day that does not
    exist, raise ValueError *)
Definition strptime (s : string) : res date :=
  match flat_map (fun '(y, s) => flat_map (fun '(m, s) => flat_map (fun '(d, s) =>
          map (fun '(h, s) => (mkDate y m d h, s)) (p_hour s)) (p_day s)) (p_month s)) (p_year s) with
  | (d, "") :: _ => if ((1 <=? d_year d) && (d_day d <=? days_in_month (d_year d) (d_month d)))%Z%bool
                    then Ok d else Raise ValueError
  | _ => Raise ValueError
  end.

(** grib.py:211 and __init__.py:157: [f'{data_date}{str(data_time)[:2]}'] *)
Definition ref_date (data_date data_time : Z) : res date :=
  strptime (str_of_Z data_date +++ stake 2 (str_of_Z data_time)).

(** ** Messages: __init__.py:146-209 *)
(** the grid of the messages, and the second one with the step key of the
    change (set_2nd_resolution, 113-118) *)
Record messages := mkMessages
  { m_first : fields; m_second : fields; m_mv : num; m_unit : string; m_level : string;
    m_type : string; m_step_units : string; m_date : date; m_first_step : step;
    m_grid : grid; m_grid2 : option (grid * step) }.

(** __init__.py:161 and controller.py:73: first key by end step *)
Definition first_by_end (v : fields) : res step :=
  match sort_by s_end (dkeys v) with k :: _ => Ok k | [] => Raise IndexError end.

(** __init__.py:163-166 append_2nd_res_messages *)
Definition append_2nd (m m2 : messages) : messages :=
  mkMessages (m_first m) (m_first m2) (m_mv m) (m_unit m) (m_level m) (m_type m) (m_step_units m)
             (m_date m) (m_first_step m) (m_grid m) (Some (m_grid m2, m_first_step m2)).

(** __init__.py:193-197 *)
Definition have_change (m : messages) : bool := match m_grid2 m with Some _ => true | None => false end.

(** ** grib.py:176-206: the loop of select_messages *)
Definition label (s e : Z) : string := str_of_Z s +++ "-" +++ str_of_Z e.

Record sel_state := mkSel
  { ss_input : Z; ss_first : fields; ss_second : fields; ss_grid2 : option grid }.

(** grib.py:191-201: the values, masked where the bitmap is 0 *)
Definition msg_field (m : gmsg) : res arr :=
  do b <- kint m "bitmapPresent";
  if (b =? 0)%Z then Ok (Nd (gm_values m))
  else if Nat.eqb (List.length (gm_bitmap m)) (List.length (gm_values m))
       then Ok (masked_where (Some (map (Z.eqb 0) (gm_bitmap m))) (gm_values m))
       else Raise IndexError.

(** [points_meridian != grid.num_points_along_meridian]: an integer against an
    integer or None *)
Definition other_nj (nj : Z) (g : grid) : bool :=
  match g_nj g with Some n => negb (nj =? n)%Z | None => true end.

Definition select_body (step2 : Z) (change : string) (main : grid) (st : sel_state) (gm : Z * gmsg)
  : res sel_state :=
  let '(g, m) := gm in
  do s <- kint m "startStep";
  do e <- kint m "endStep";
  do nj <- kint m "Nj";
  do lev <- kint m "level";
  let input := if String.eqb (label s e) change then step2 else ss_input st in
  let key := mkStep s e nj input lev in
  do grid2 <- (if other_nj nj main then do x <- grid_details g m; Ok (Some x) else Ok (ss_grid2 st));
  do v <- msg_field m;
  match grid2 with
  | None => Ok (mkSel input (dset step_eqb (ss_first st) key v) (ss_second st) grid2)
  | Some _ => if other_nj nj main
              then Ok (mkSel input (ss_first st) (dset step_eqb (ss_second st) key v) grid2)
              else Ok (mkSel input (ss_first st) (ss_second st) grid2)
  end.

(** [min(keys)] with Step.__lt__ (start steps): the first of the smallest *)
Definition min_step (l : list step) : res step :=
  match l with
  | [] => Raise ValueError
  | k :: r => Ok (fold_left (fun best k => if (s_start k <? s_start best)%Z then k else best) r k)
  end.

(** grib.py:155-211 on the selected messages (not empty) *)
Definition build_messages (step step2 : Z) (change : string) (ms : list (Z * gmsg)) : res messages :=
  match ms with
  | [] => Raise (AppExc 3000)
  | (g0, m0) :: _ =>
      do main <- grid_details g0 m0;
      let ref := match ms with _ :: (_, m1) :: _ => m1 | _ => m0 end in
      do unit <- kstr ref "units";
      do type_ <- kstr ref "stepType";
      do sunits <- kstr m0 "stepUnits";
      do ltype <- kstr m0 "levelType";
      do mv <- kdbl m0 "missingValue";
      do ddate <- kint m0 "dataDate";
      do dtime <- kint m0 "dataTime";
      do st <- foldM (select_body step2 change main) ms (mkSel step [] [] None);
      do g2 <- match ss_grid2 st with
               | None => Ok None
               | Some x => do k <- min_step (dkeys (ss_second st)); Ok (Some (x, k))
               end;
      do d <- ref_date ddate dtime;
      do fs <- first_by_end (ss_first st);
      Ok (mkMessages (ss_first st) (ss_second st) mv unit ltype type_ sunits d fs main g2)
  end.

Definition set_sel (r : reader) (gs : list Z) (main ext : option Z) : reader :=
  mkReader (r_index r) (r_file r) (r_msgs r) (Some gs) (r_step r) (r_step2 r) (r_change r) main ext.

(** grib.py:149-214 select_messages. (After an exception in the loop the
    handle of the second resolution is not recorded; no operation uses it
    then.) *)
Definition select_messages (sel : selection) (r : reader) (w : world) : res messages * (reader * world) :=
  match get_gids sel r w with
  | (Raise e, rw) => (Raise e, rw)
  | (Ok [], (r, w)) => (Raise (AppExc 3000), (set_sel r [] (r_main r) (r_ext r), w))
  | (Ok (g0 :: gs), (r, w)) =>
      match w_derefs (g0 :: gs) w with
      | (Raise e, w) => (Raise e, (set_sel r (g0 :: gs) (Some g0) (r_ext r), w))
      | (Ok ms, w) =>
          match build_messages (r_step r) (r_step2 r) (r_change r) ms with
          | Raise e => (Raise e, (set_sel r (g0 :: gs) (Some g0) (r_ext r), w))
          | Ok m => (Ok m, (set_sel r (g0 :: gs) (Some g0)
                              (match m_grid2 m with Some (x, _) => Some (g_gid x) | None => r_ext r end), w))
          end
      end
  end.

(** ** grib.py:216-241 _find_start_end_steps *)
Record steps_info := mkInfo
  { i_start : Z; i_end : Z; i_step : Z; i_step2 : Z; i_change : string }.

Definition zmin_list (l : list Z) : res Z :=
  match l with [] => Raise ValueError | x :: r => Ok (fold_left Z.min r x) end.
Definition zmax_list (l : list Z) : res Z :=
  match l with [] => Raise ValueError | x :: r => Ok (fold_left Z.max r x) end.
Definition zsorted (l : list Z) : list Z := sort_by (fun z => z) l.

(** lines 236-240, body of the loop over [i] *)
Definition spacing_body (es ss : list Z) (step : Z) (st : Z * string) (i : nat) : Z * string :=
  let '(step2, change) := st in
  let d := (nth i es 0 - nth (i - 1) es 0)%Z in
  if ((step2 =? -1) && negb (d =? step))%Z%bool then (d, label (nth i ss 0%Z) (nth i es 0%Z)) else st.

Definition find_steps (pairs : list (Z * Z)) : res steps_info :=
  do s <- zmin_list (map fst pairs);
  do e <- zmax_list (map snd pairs);
  let es := zsorted (map snd pairs) in
  let ss := zsorted (map fst pairs) in
  let n := List.length es in
  if (1 <? n)%nat then
    let step := (nth 1 es 0 - nth 0 es 0)%Z in
    let '(step2, change) := fold_left (spacing_body es ss step) (seq 2 (n - 2)) (-1, "")%Z in
    Ok (mkInfo s e step step2 change)
  else Ok (mkInfo s e (nth 0 es 0 - nth 0 ss 0)%Z (-1) "").

(** grib.py:243-262 get_grib_info: information, stepType of the last message,
    missing value of the first *)
Definition info_of (ms : list (Z * gmsg)) : res (steps_info * string * num) :=
  match ms with
  | [] => Raise (AppExc 3000)
  | (_, m0) :: _ =>
      do t <- kstr (snd (List.last ms (0%Z, m0))) "stepType";
      do mv <- kdbl m0 "missingValue";
      do ps <- mapM (fun gm : Z * gmsg => do a <- kint (snd gm) "startStep"; do b <- kint (snd gm) "endStep"; Ok (a, b)) ms;
      do i <- find_steps ps;
      Ok (i, t, mv)
  end.
Definition set_steps (r : reader) (i : steps_info) : reader :=
  mkReader (r_index r) (r_file r) (r_msgs r) (r_sel r) (i_step i) (i_step2 i) (i_change i) (r_main r) (r_ext r).
Definition get_grib_info (sel : selection) (r : reader) (w : world)
  : res (steps_info * string * num) * (reader * world) :=
  match get_gids sel r w with
  | (Raise e, rw) => (Raise e, rw)
  | (Ok [], rw) => (Raise (AppExc 3000), rw)
  | (Ok gs, (r, w)) =>
      match w_derefs gs w with
      | (Raise e, w) => (Raise e, (r, w))
      | (Ok ms, w) =>
          match info_of ms with
          | Raise e => (Raise e, (r, w))
          | Ok (i, t, mv) => (Ok (i, t, mv), (set_steps r i, w_releases gs w))
          end
      end
  end.

(** grib.py:84-105 has_geopotential: each message is released at once. An
    index made with the key perturbationNumber (grib.py:36-38) keeps the value
    of that key selected last, by the information request before
    (grib.py:116-117): [p] is that value, [None] when no member was selected.
    So only messages of that member are seen. *)
Fixpoint open_release (ms : list gmsg) (w : world) : world :=
  match ms with [] => w | m :: r => let '(g, w) := w_open m w in open_release r (w_release g w) end.
Definition geo_names : list string := ["fis"; "z"; "FIS"; "orog"].
Definition has_geopotential (p : option Z) (r : reader) (w : world) : res bool * (reader * world) :=
  match r_index r, r_file r with
  | Some _, _ =>
      let ms := flat_map (fun n => filter (in_index n p) (r_msgs r)) geo_names in
      (Ok (match ms with [] => false | _ => true end), (r, open_release ms w))
  | None, Some ms => (Ok (match ms with [] => false | _ => true end), (set_file r (Some []), open_release ms w))
  | None, None => (Ok false, (r, w))
  end.

(** grib.py:264-270 get_gids_for_grib_intertable. ([None] as a handle is
    refused by eccodes.) *)
Definition intertable_gids (r : reader) (w : world)
  : res (Z * list num * option (Z * list num)) * (reader * world) :=
  match r_main r with
  | None => (Raise OtherError, (r, w))
  | Some g =>
      match w_deref g w with
      | (Raise e, w) => (Raise e, (r, w))
      | (Ok m, w) =>
          match r_ext r with
          | None => (Ok (g, gm_values m, None), (r, w))
          | Some g2 => match w_deref g2 w with
                       | (Raise e, w) => (Raise e, (r, w))
                       | (Ok m2, w) => (Ok (g, gm_values m, Some (g2, gm_values m2)), (r, w))
                       end
          end
      end
  end.

(** grib.py:72-82 close; iterating over None raises TypeError *)
Definition close (r : reader) (w : world) : res unit * (reader * world) :=
  match r_sel r with
  | None => (Raise TypeError, (r, w))
  | Some gs =>
      let w := w_releases gs w in
      let w := match r_index r with
               | Some _ => mkWorld (w_next w) (w_live w) (w_bad w) (pred (w_index w)) (w_files w)
               | None => w end in
      let w := match r_file r with
               | Some _ => mkWorld (w_next w) (w_live w) (w_bad w) (w_index w) (pred (w_files w))
               | None => w end in
      (Ok tt, (mkReader None None (r_msgs r) None (r_step r) (r_step2 r) (r_change r) (r_main r) (r_ext r), w))
  end.

(** grib.py:49-55 get_id *)
Definition get_id (f : option gfile) (sel : selection) (w : world) : res string * world :=
  match reader_new f false w with
  | (Raise e, w) => (Raise e, w)
  | (Ok r, w) =>
      match get_gids sel r w with
      | (Raise e, (_, w)) => (Raise e, w)
      | (Ok [], (_, w)) => (Raise IndexError, w)
      | (Ok (g :: _), (r, w)) =>
          match w_deref g w with
          | (Raise e, w) => (Raise e, w)
          | (Ok m, w) => match grid_details g m with
                         | Raise e => (Raise e, w)
                         | Ok x => let '(_, (_, w)) := close r w in (Ok (g_id x), w)
                         end
          end
      end
  end.

(** ** Sequences of operations on one reader (C59) *)
Inductive rop := OInfo (sel : selection) | OGeo (p : option Z) | OSelect (sel : selection) | OAux | OClose.
Definition forget {A} (x : res A) : res unit := match x with Ok _ => Ok tt | Raise e => Raise e end.
Definition rop_run (o : rop) (r : reader) (w : world) : res unit * (reader * world) :=
  match o with
  | OInfo sel => let '(x, rw) := get_grib_info sel r w in (forget x, rw)
  | OGeo p => let '(x, rw) := has_geopotential p r w in (forget x, rw)
  | OSelect sel => let '(x, rw) := select_messages sel r w in (forget x, rw)
  | OAux => let '(x, rw) := intertable_gids r w in (forget x, rw)
  | OClose => close r w
  end.
(** run the operations one after the other (whatever they raise), collecting
    the outcomes *)
Fixpoint rops_run (os : list rop) (r : reader) (w : world) : list (res unit) * (reader * world) :=
  match os with
  | [] => ([], (r, w))
  | o :: os => let '(x, (r, w)) := rop_run o r w in
               let '(xs, rw) := rops_run os r w in (x :: xs, rw)
  end.
