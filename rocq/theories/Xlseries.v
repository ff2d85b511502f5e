(** xlseries.py: the user's entry point. *)
From Verif Require Import Base Coord XlMethods Params ParseTime Scrape.
Local Open Scope Z_scope.

(** An openpyxl Workbook object: its worksheet objects in order. *)
Definition wb_obj := list nat.
Definition sheetnames (st : store) (wb : wb_obj) : list text :=
  map (fun i => title (sheet st i)) wb.

(** wb[name]: KeyError when there is no such sheet *)
Definition sheet_by_name (st : store) (wb : wb_obj) (name : text) : res nat :=
  match find (fun i => text_eqb (title (sheet st i)) name) wb with
  | Some i => Ok i
  | None => Err EKey
  end.

(** xlseries.py:137-157 _sanitize_ws_name; [uni] is unidecode *)
Definition sanitize_ws_name (uni : text -> text) (orig : text) (names : list text) : text :=
  if text_in orig names then orig
  else match find (fun n => text_eqb (strip orig) (strip n)) names with
       | Some n => n
       | None =>
           match find (fun n => text_eqb (strip (uni orig)) (strip (uni n))) names with
           | Some n => n
           | None => orig
           end
       end.

(** make_wb_copy (utils/xl_methods.py:183-205) as new objects *)
Fixpoint copy_wb (st : store) (wb : wb_obj) : store * wb_obj :=
  match wb with
  | [] => (st, [])
  | i :: wb' =>
      let '(st1, j) := new_sheet st (make_ws_copy (sheet st i)) in
      let '(st2, js) := copy_wb st1 wb' in
      (st2, j :: js)
  end.

(** What the user passes as parameters: something to build an object from, or
    a Parameters object of theirs, used as it is (strategies.py:57-60). *)
Inductive uparams := UInput (i : pinput) | UObj (pid : nat).

Definition params_obj (json : text -> res dict) (st : store) (u : uparams) : store * res nat :=
  match u with
  | UObj pid => (st, Ok pid)
  | UInput i =>
      match make_params json i with
      | Ok p => let '(st', pid) := new_params st p in (st', Ok pid)
      | Err x => (st, Err x)
      end
  end.

(** xlseries.py:132-135: a list with a single result is unwrapped *)
Definition unwrap_result (x : dfs_t) : dfs_t :=
  match x with DL [d] => d | _ => x end.

(** xlseries.py:70-135 get_data_frames.  The result carries the name under
    which the parameters are stored in self.params and the object stored. *)
Definition get_data_frames (e : env) (uni : text -> text) (json : text -> res dict)
    (st : store) (wb : wb_obj) (u : uparams) (ws_name : option text)
    (safe_mode preserve : bool) : store * res (dfs_t * text * nat) :=
  let '(st1, wb1) := if preserve then copy_wb st wb else (st, wb) in
  let names := sheetnames st1 wb1 in
  match (match ws_name with
         | Some (c :: n) => Ok (sanitize_ws_name uni (c :: n) names)
         | _ => match names with n :: _ => Ok n | [] => Err EIndex end
         end) with
  | Err x => (st1, Err x)
  | Ok name =>
      match sheet_by_name st1 wb1 name with
      | Err x => (st1, Err x)
      | Ok si =>
          let '(st2, rp) := params_obj json st1 u in
          match rp with
          | Err x => (st2, Err x)
          | Ok pid =>
              let '(st3, r) := scrape e safe_mode st2 si pid in
              (st3, do x <- r; Ok (unwrap_result (fst x), name, snd x))
          end
      end
  end.
