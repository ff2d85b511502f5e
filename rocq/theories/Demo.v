(** Sheets used by the examples. *)
From Verif Require Import Base Coord Params ParseTime SpecParams.
Local Open Scope Z_scope.

(** nothing from outside is needed by them *)
Definition demo_env : env :=
  mkenv (fun _ => []) (fun _ => []) (fun _ => None) (fun _ _ => None) (fun _ => Err EOther) (fun _ => Err EOther).

Definition sheet_of (t : text) (rows : list (list pyval)) : worksheet :=
  mkws (fun r c => if (1 <=? r) && (1 <=? c) then nth (Z.to_nat (c - 1)) (nth (Z.to_nat (r - 1)) rows []) VNone else VNone)
       (Z.of_nat (List.length rows)) (fold_right Z.max 0 (map (fun l => Z.of_nat (List.length l)) rows)) t.
Definition day (y m d : Z) : pyval := VDate (mkdt y m d 0).

(** three monthly series *)
Definition demo : worksheet := sheet_of (T "Data")
  [[VStr (T "Date"); VStr (T "a"); VStr (T "b"); VStr (T "c")];
   [day 2000 1 1; VInt 1; VInt 2; VInt 3];
   [day 2000 2 1; VInt 4; VInt 5; VInt 6];
   [day 2000 3 1; VInt 7; VInt 8; VInt 9]].
(** the same with the dates as year and month in a text *)
Definition demo_text : worksheet := sheet_of (T "Texts")
  [[VStr (T "Date"); VStr (T "a"); VStr (T "b"); VStr (T "c")];
   [VStr (T "2000-01"); VInt 1; VInt 2; VInt 3];
   [VStr (T "2000-02"); VInt 4; VInt 5; VInt 6];
   [VStr (T "2000-03"); VInt 7; VInt 8; VInt 9]].
(** a monthly and a quarterly series, each with its own dates *)
Definition demo_two : worksheet := sheet_of (T " Two ")
  [[VStr (T "Date"); VStr (T "m"); VStr (T "Date"); VStr (T "q")];
   [day 2000 1 1; VInt 1; day 2000 1 1; VInt 3];
   [day 2000 2 1; VInt 4; day 2000 4 1; VInt 6];
   [day 2000 3 1; VInt 7; day 2000 7 1; VInt 9]].
Definition two_params : dict :=
  [ (pname "headers_coord", VList [VStr (pname "B1"); VStr (pname "D1")]);
    (pname "time_header_coord", VList [VStr (pname "A1"); VStr (pname "C1")]);
    (pname "alignment", VStr (pname "vertical"));
    (pname "data_starts", VInt 2);
    (pname "frequency", VList [VStr (pname "M"); VStr (pname "Q")]) ].
