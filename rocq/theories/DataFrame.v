(** Data frames and utils/data_frame.py's comparison of them. *)
From Verif Require Import Base Cal Comparing XlMethods ParseTime PeriodRange.
Local Open Scope Z_scope.

(** a pandas DataFrame: index, column names, one list of values per column *)
Record df := mkdf { df_index : prange; df_cols : list text; df_data : list (list spec_float) }.

(** pd.DataFrame(index, columns, data=np.array(series).transpose()): ValueError
    unless every column has one value per date (or there is no column) *)
Definition make_df (pr : prange) (cols : list text) (data : list (list spec_float)) : res df :=
  if negb (Nat.eqb (List.length cols) 0)
     && Nat.eqb (List.length cols) (List.length data)
     && forallb (fun c => Nat.eqb (List.length c) (List.length (pr_dates pr))) data
  then Ok (mkdf pr cols data) else Err EValue.

Definition pr_first (pr : prange) : option datetime := hd_error (pr_dates pr).
Definition pr_last (pr : prange) : option datetime := hd_error (rev (pr_dates pr)).

(** strategies.py:284-317: the daily frames retry with working days *)
Definition build_df (pr : prange) (cols : list text) (data : list (list spec_float)) : res df :=
  if text_eqb (pr_freq pr) (T "D") then
    match make_df pr cols data with
    | Ok d => Ok d
    | Err _ =>
        match pr_first pr, pr_last pr with
        | Some a, Some b => make_df (business_range a b) cols data
        | _, _ => Err EIndex
        end
    end
  else make_df pr cols data.

(** ** utils/data_frame.py:230-322 compare_data_frames *)

Fixpoint column_of (c : text) (cols : list text) (data : list (list spec_float)) : list spec_float :=
  match cols, data with
  | k :: cols', v :: data' => if text_eqb c k then v else column_of c cols' data'
  | _, _ => []
  end.

(** data_frame.py:279-296 _check_columns: a plain Exception when they differ *)
Definition check_columns (c1 c2 : list text) : res bool :=
  if forallb (fun c => text_in c c2) c1 then
    if forallb (fun c => text_in c c1) c2 then Ok true else Err EOther
  else Err EOther.

(** data_frame.py:299-306 _check_index *)
Fixpoint check_index (i1 i2 : list datetime) : bool :=
  match i1, i2 with
  | a :: i1', b :: i2' => dt_eqb a b && check_index i1' i2'
  | _, _ => true
  end.

(** data_frame.py:315-320: one column, stops at the first difference *)
Fixpoint check_column (v1 v2 : list spec_float) : res bool :=
  match v1, v2 with
  | a :: v1', b :: v2' =>
      do x <- approx_equal (VFloat a) (VFloat b) tol_1e4;
      if x : bool then check_column v1' v2' else Ok false
  | _, _ => Ok true
  end.
(** data_frame.py:309-322 _check_values *)
Definition check_values (d1 d2 : df) : res bool :=
  foldM (fun acc c =>
    do b <- check_column (column_of c (df_cols d1) (df_data d1))
                         (column_of c (df_cols d2) (df_data d2));
    Ok (acc && b)) (df_cols d1) true.

(** data_frame.py:246-271 *)
Definition compare_data_frames (d1 d2 : df) : res bool :=
  do _ <- assert_ (Nat.eqb (List.length (pr_dates (df_index d1)))
                           (List.length (pr_dates (df_index d2))));
  do _ <- assert_ (text_eqb (pr_freq (df_index d1)) (pr_freq (df_index d2)));
  do c <- check_columns (df_cols d1) (df_cols d2);
  do _ <- assert_ c;
  do _ <- assert_ (check_index (pr_dates (df_index d1)) (pr_dates (df_index d2)));
  do v <- check_values d1 d2;
  do _ <- assert_ v;
  Ok true.

(** data_frame.py:325-347 compare_period_ranges: any exception is False *)
Definition compare_period_ranges (p1 p2 : prange) : bool :=
  text_eqb (pr_freq p1) (pr_freq p2) &&
  match pr_first p1, pr_first p2, pr_last p1, pr_last p2 with
  | Some a1, Some a2, Some b1, Some b2 => dt_eqb a1 a2 && dt_eqb b1 b2
  | _, _, _, _ => false
  end.
