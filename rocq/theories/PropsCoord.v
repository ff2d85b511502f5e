(** Properties C01 - C05: header ranges, coordinates, composed headers, context
    scope and consecutive cells. *)
From Coq Require Import Sorting.Sorted Sorting.Permutation.
From Verif Require Import Base BaseFacts Coord XlMethods Params CoordFacts
  SpecCoord SpecScope SpecParams SpecCoordFacts HeaderFacts BuildFacts ComposedFacts ScopeFacts CoordProofs ScopeExact.
Local Open Scope Z_scope.

(** ** C01 Header ranges expand to exactly the cells of the rectangle *)

(** one text: a cell, "X-Y" or "X:Y" *)
Theorem C01_header_text_expands t cells : entry_cells t cells ->
  exists names, unpack_header_ranges (VStr t) = Ok (VList (map VStr names)) /\ names_cells names cells.
Proof. exact (c01_text t cells). Qed.
Print Assumptions C01_header_text_expands.

(** a list of such texts: the expansions, one after the other *)
Theorem C01_header_list_expands es css : es <> [] -> Forall2 entry_cells es css ->
  exists names, unpack_header_ranges (VList (map VStr es)) = Ok (VList (map VStr names)) /\
    names_cells names (List.concat css).
Proof. exact (c01_list es css). Qed.
Print Assumptions C01_header_list_expands.

(** declaring a range gives the same parameters as listing its cells *)
Theorem C01_range_same_as_listing x y sep r1 c1 r2 c2 cells names d :
  cell_named x r1 c1 -> cell_named y r2 c2 -> sep = "-"%char \/ sep = ":"%char ->
  rectangle r1 c1 r2 c2 cells -> cells <> [] ->
  names_cells names cells -> Forall canonical_name names ->
  build (dset n_headers_coord (VStr (x ++ sep :: y)) d)
    = build (dset n_headers_coord (VList (map VStr names)) d) /\
  build (dset n_time_header (VStr (x ++ sep :: y)) d)
    = build (dset n_time_header (VList (map VStr names)) d).
Proof. exact (c01_same x y sep r1 c1 r2 c2 cells names d). Qed.
Print Assumptions C01_range_same_as_listing.

Example C01_example :
  entry_cells (txt "b2-C3") [(2, 2); (2, 3); (3, 2); (3, 3)] /\
  unpack_header_ranges (VStr (txt "b2-C3"))
    = Ok (VList (map VStr [txt "B2"; txt "C2"; txt "B3"; txt "C3"])) /\
  names_cells [txt "B2"; txt "C2"; txt "B3"; txt "C3"] [(2, 2); (2, 3); (3, 2); (3, 3)] /\
  Forall canonical_name [txt "B2"; txt "C2"; txt "B3"; txt "C3"].
Proof. exact c01_example. Qed.

(** a whole Parameters dictionary for which the theorem is about a success *)
Example C01_example_build :
  let d := [(n_headers_coord, VNone); (n_time_header, VStr (txt "A1"));
            (n_data_starts, VInt 2); (n_frequency, VStr (txt "M"))] in
  is_ok (build (dset n_headers_coord (VStr (txt "B1-D1")) d)) = true /\
  build (dset n_headers_coord (VStr (txt "B1-D1")) d)
   = build (dset n_headers_coord (VList (map VStr [txt "B1"; txt "C1"; txt "D1"])) d).
Proof. vm_compute. split; reflexivity. Qed.

(** ** C02 Cell coordinates round-trip *)

(** reading back the coordinate of a cell gives the cell, and the coordinate is
    its usual name *)
Theorem C02_round_trip r c : 1 <= r -> 1 <= c <= 18278 ->
  parse_coord (coord_text r c) = Ok (r, c) /\
  cell_named (coord_text r c) r c /\ canonical_name (coord_text r c).
Proof. exact (c02_round r c). Qed.
Print Assumptions C02_round_trip.

(** column letters of every column openpyxl supports *)
Theorem C02_column_letters c : 1 <= c <= 18278 ->
  exists l, get_column_letter c = Ok l /\ column_number l c /\ column_index_from_string l = Ok c.
Proof. exact (c02_letters c). Qed.
Print Assumptions C02_column_letters.

(** different cells never share a coordinate text *)
Theorem C02_distinct r c r' c' : 1 <= r -> 1 <= c <= 18278 -> 1 <= r' -> 1 <= c' <= 18278 ->
  coord_text r c = coord_text r' c' -> r = r' /\ c = c'.
Proof. exact (coord_text_inj r c r' c'). Qed.
Print Assumptions C02_distinct.

(** a text is accepted as a coordinate exactly when it names a cell, that cell *)
Theorem C02_reading t r c : parse_coord t = Ok (r, c) <-> cell_named t r c.
Proof. exact (c02_reading t r c). Qed.
Print Assumptions C02_reading.

Example C02_example : coord_text 120 731 = txt "ABC120" /\ parse_coord (txt "aBc120") = Ok (120, 731).
Proof. vm_compute. split; reflexivity. Qed.

(** ** C03 Composed header ranges pair up *)

(** "(x1_.._xk)-(y1_.._yk)": one series per position present in every
    component; its header is the cell of the last component and its composed
    headers the cells of the earlier ones *)
Theorem C03_composed_range parens init lst : init <> [] -> Forall component_ok (init ++ [lst]) ->
  exists composed headers,
    process_headers_coord (VStr (composed_range parens (init ++ [lst]))) = Ok (composed, headers) /\
    List.length composed = List.length headers /\
    (forall i, (i < List.length headers)%nat <->
               Forall (fun k => (i < List.length (cp_cells k))%nat) (init ++ [lst])) /\
    (forall i, (i < List.length headers)%nat ->
       exists h cs, nth_error headers i = Some (VStr h) /\ comp_cell i h lst /\
         nth_error composed i = Some (VList (map VStr cs)) /\ Forall2 (comp_cell i) cs init).
Proof. exact (composed_ok parens init lst). Qed.
Print Assumptions C03_composed_range.

(** and this is what the built parameters hold *)
Theorem C03_built d composed headers v b : NoDup (map fst d) -> dget n_headers_coord d = Some v ->
  process_headers_coord v = Ok (composed, headers) ->
  existsb truthy composed = true -> (2 <= List.length headers)%nat ->
  build d = Ok b ->
  dgetN n_headers_coord b = VList headers /\ dgetN n_composed b = VList composed.
Proof. exact (c03_built d composed headers v b). Qed.
Print Assumptions C03_built.

Example C03_example :
  process_headers_coord (VStr (txt "(A1_B2)-(C1_D2)"))
   = Ok ([VList [VStr (txt "A1")]; VList [VStr (txt "B1")]; VList [VStr (txt "C1")]],
         [VStr (txt "B2"); VStr (txt "C2"); VStr (txt "D2")]) /\
  Forall component_ok ([mkcomp (txt "A1") (txt "C1") [(1,1);(1,2);(1,3)]]
                       ++ [mkcomp (txt "B2") (txt "D2") [(2,2);(2,3);(2,4)]]) /\
  composed_range true ([mkcomp (txt "A1") (txt "C1") [(1,1);(1,2);(1,3)]]
                       ++ [mkcomp (txt "B2") (txt "D2") [(2,2);(2,3);(2,4)]]) = txt "(A1_B2)-(C1_D2)".
Proof. exact c03_example. Qed.

(** ** C04 Context applies to the headers under or right of its range *)

(** horizontal context ranges *)
Theorem C04_horizontal_context entries hs headers :
  Forall (fun e => value_cells (snd (fst e)) (ce_cells e)) entries ->
  Forall (fun e => (2 <= List.length (ce_cells e))%nat /\ in_one_row (ce_cells e)) entries ->
  names_cells hs headers ->
  exists rows,
    process_context (VDict (map fst entries)) (map VStr hs) = Ok (VList (map VList rows)) /\
    Forall2 (attaches concerns_row entries) rows headers.
Proof. exact (c04_horizontal entries hs headers). Qed.
Print Assumptions C04_horizontal_context.

(** horizontal and vertical ranges together.  Missing: a vertical range whose
    column is written with another number of letters than the header's column
    (see [C04_vertical_context_refuted]: such columns are compared as texts). *)
Theorem C04_context_partial entries hs headers :
  Forall (fun e => value_cells (snd (fst e)) (ce_cells e)) entries ->
  Forall (fun e => (2 <= List.length (ce_cells e))%nat /\
                   (in_one_row (ce_cells e) \/
                    in_one_column (ce_cells e) /\
                    (forall p h, In p (ce_cells e) -> In h headers ->
                       letters_of_column (snd p) = letters_of_column (snd h)))) entries ->
  names_cells hs headers ->
  exists rows,
    process_context (VDict (map fst entries)) (map VStr hs) = Ok (VList (map VList rows)) /\
    Forall2 (attaches (fun cells r c => concerns_row cells r c \/
                         ~ in_one_row cells /\ concerns_column cells r c) entries) rows headers.
Proof. exact (c04_mixed entries hs headers). Qed.
Print Assumptions C04_context_partial.

(** the full statement fails for vertical ranges: header AA2 is right of B1..B3
    yet gets nothing, header B2 is left of AA1..AA3 yet gets the context *)
Theorem C04_vertical_context_refuted :
  (exists e h, value_cells (snd (fst e)) (ce_cells e) /\ cell_named h 2 27 /\
     (2 <= List.length (ce_cells e))%nat /\ concerns_column (ce_cells e) 2 27 /\
     process_context (VDict [fst e]) [VStr h] = Ok (VList [VList []])) /\
  (exists e h, value_cells (snd (fst e)) (ce_cells e) /\ cell_named h 2 2 /\
     (2 <= List.length (ce_cells e))%nat /\ ~ concerns_column (ce_cells e) 2 2 /\
     process_context (VDict [fst e]) [VStr h] = Ok (VList [VList [VStr (ce_text e)]])).
Proof. exact c04_refuted. Qed.
Print Assumptions C04_vertical_context_refuted.

(** what happens for every vertical range: the columns are compared by their
    names, in the order of a dictionary *)
Theorem C04_exact entries hs headers :
  Forall (fun e => value_cells (snd (fst e)) (ce_cells e)) entries ->
  Forall (fun e => (2 <= List.length (ce_cells e))%nat /\
                   (in_one_row (ce_cells e) \/ in_one_column (ce_cells e))) entries ->
  names_cells hs headers ->
  exists rows,
    process_context (VDict (map fst entries)) (map VStr hs) = Ok (VList (map VList rows)) /\
    Forall2 (attaches (fun cells r c => concerns_row cells r c \/
                         ~ in_one_row cells /\ concerns_column_by_name cells r c) entries) rows headers.
Proof. exact (c04_exact entries hs headers). Qed.
Print Assumptions C04_exact.

(** a range in column B: a header in column AA comes before it, one in C after *)
Example C04_exact_case :
  process_context (VDict [(txt "Total", VStr (txt "B1-B3"))]) (map VStr [txt "AA2"; txt "C2"; txt "C4"])
   = Ok (VList [VList []; VList [VStr (txt "Total")]; VList []]) /\
  value_cells (VStr (txt "B1-B3")) [(1, 2); (2, 2); (3, 2)] /\
  in_one_column [(1, 2); (2, 2); (3, 2)] /\
  names_cells [txt "AA2"; txt "C2"; txt "C4"] [(2, 27); (2, 3); (4, 3)].
Proof.
  split; [vm_compute; reflexivity|]. split; [|split].
  - constructor. apply (entry_range (txt "B1") (txt "B3") "-"%char 1 2 3 2);
       [apply cn; vm_compute; reflexivity|apply cn; vm_compute; reflexivity|auto|apply rc; vm_compute; reflexivity].
  - exists 2. intros p [<-|[<-|[<-|[]]]]; auto.
  - apply nc; vm_compute; reflexivity.
Qed.

Example C04_example :
  process_context (VDict [(txt "Short", VStr (txt "C1-D1")); (txt "Long", VStr (txt "B1-E1"))])
     (map VStr [txt "B3"; txt "C3"; txt "G3"])
   = Ok (VList [VList [VStr (txt "Long")]; VList [VStr (txt "Long"); VStr (txt "Short")]; VList []]) /\
  value_cells (VStr (txt "C1-D1")) [(1, 3); (1, 4)] /\ in_one_row [(1, 3); (1, 4)] /\
  names_cells [txt "B3"; txt "C3"; txt "G3"] [(3, 2); (3, 3); (3, 7)].
Proof. exact c04_example. Qed.

(** ** C05 Consecutive cell detection *)

(** every unbroken run is recognised *)
Theorem C05_runs_recognised ts cells : names_cells ts cells -> row_run cells \/ column_run cells ->
  consecutive_cells ts = Ok true.
Proof. exact (consecutive_complete ts cells). Qed.
Print Assumptions C05_runs_recognised.

(** Missing: lists whose second cell is in another row and another column than
    the first (see [C05_diagonal_refuted]). *)
Theorem C05_consecutive_partial ts cells : names_cells ts cells -> no_diagonal_start cells ->
  (consecutive_cells ts = Ok true <-> row_run cells \/ column_run cells).
Proof. exact (c05_iff ts cells). Qed.
Print Assumptions C05_consecutive_partial.

(** cells on a diagonal are accepted *)
Theorem C05_diagonal_refuted : exists ts cells, names_cells ts cells /\
  consecutive_cells ts = Ok true /\ ~ row_run cells /\ ~ column_run cells.
Proof. exact c05_refuted. Qed.
Print Assumptions C05_diagonal_refuted.

(** what is accepted, exactly: a run, or a run after whose first cell any number
    of cells of other rows and columns are inserted *)
Theorem C05_exact ts cells : names_cells ts cells ->
  (consecutive_cells ts = Ok true <-> cells = [] \/ run_after_skipping cells).
Proof. exact (c05_exact ts cells). Qed.
Print Assumptions C05_exact.

Example C05_exact_case :
  let ts := [txt "B2"; txt "D7"; txt "A9"; txt "C2"; txt "D2"] in
  names_cells ts [(2, 2); (7, 4); (9, 1); (2, 3); (2, 4)] /\
  run_after_skipping [(2, 2); (7, 4); (9, 1); (2, 3); (2, 4)] /\ consecutive_cells ts = Ok true /\
  consecutive_cells [txt "B2"; txt "C2"; txt "D7"] = Ok false.
Proof.
  intros ts. split; [apply nc; vm_compute; reflexivity|]. split.
  - exists (2, 2), [(7, 4); (9, 1)], [(2, 3); (2, 4)]. split; [reflexivity|]. split.
    + repeat constructor; cbn; lia.
    + left. exists 2, 2, 3%nat. reflexivity.
  - split; vm_compute; reflexivity.
Qed.

Example C05_example :
  names_cells [txt "Y7"; txt "Z7"; txt "AA7"] [(7, 25); (7, 26); (7, 27)] /\
  row_run [(7, 25); (7, 26); (7, 27)] /\ consecutive_cells [txt "Y7"; txt "Z7"; txt "AA7"] = Ok true /\
  consecutive_cells [txt "Y7"; txt "AA7"] = Ok false.
Proof. exact c05_example. Qed.
