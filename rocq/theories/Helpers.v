(** utils/strategies_helpers.py: the strategies of a module. *)
From Verif Require Import Base XlMethods.

(** What a module has under a name: a class, that is an exception or not, or
    something else.  The classes themselves are not modelled: only what is asked
    about them. *)
Inductive member := Class (exception : bool) | Other.

(** inspect.getmembers(module, inspect.isclass), strategies_helpers.py:66-69:
    the classes, sorted by name (dir() gives each name once; then results.sort) *)
Fixpoint insert (x : text * member) (l : list (text * member)) : list (text * member) :=
  match l with
  | [] => [x]
  | y :: l' => if text_leb (fst x) (fst y) then x :: l else y :: insert x l'
  end.
Definition is_class (x : text * member) : bool := match snd x with Class _ => true | Other => false end.
Definition get_parent_module_classes (ms : list (text * member)) : list (text * member) :=
  fold_right insert [] (filter is_class ms).

(** strategies_helpers.py:20-32 get_strategies_names: cls_name[:4] != "Base" and
    cls_name != "Parameters" and not issubclass(..., Exception) *)
Definition is_exception (x : text * member) : bool := match snd x with Class b => b | Other => false end.
Definition get_strategies_names (ms : list (text * member)) : list text :=
  map fst (filter (fun x => negb (text_eqb (firstn 4 (fst x)) (T "Base")) && negb (text_eqb (fst x) (T "Parameters")) && negb (is_exception x))
    (get_parent_module_classes ms)).
(** strategies_helpers.py:35-48 get_strategies: the classes of those names, here
    their names.  The module is that of the caller: stack()[2] of
    get_parent_module_classes is the get_strategies of the strategies module. *)
Definition get_strategies (ms : list (text * member)) : list text := get_strategies_names ms.

(** ** The modules of the package: their classes in the order of the file, those
    they import first *)
Definition parse_time_classes : list (text * member) :=
  [ (T "NoPossibleTimeValue", Class true); (T "TimeIsNotComposed", Class true); (T "NoTimeValue", Class true);
    (T "BaseDateMemberOutOfRange", Class true); (T "DayOutOfRange", Class true); (T "MonthOutOfRange", Class true);
    (T "BaseParseTimeStrategy", Class false); (T "ParseSimpleTime", Class false); (T "BasePEG", Class false);
    (T "BaseComposedQuarter", Class false); (T "ParseComposedQuarter1", Class false); (T "ParseComposedQuarter2", Class false);
    (T "ParseComposedQuarter3", Class false); (T "ParseComposedQuarter4", Class false); (T "ParseComposedYearQuarter1", Class false);
    (T "ParseComposedQuarterYear1", Class false); (T "BaseComposedSemester", Class false); (T "ParseComposedSemester", Class false);
    (T "BaseComposedMonth", Class false); (T "ParseComposedMonth1", Class false); (T "ParseComposedMonth2", Class false);
    (T "BaseComposedYear", Class false); (T "ParseComposedYear1", Class false); (T "ParseComposedYear2", Class false) ].
Definition time_index_classes : list (text * member) :=
  [ (T "DayOutOfRange", Class true); (T "MonthOutOfRange", Class true); (T "NoTimeValue", Class true); (T "NoPossibleTimeValue", Class true);
    (T "BaseProgressionError", Class true); (T "TimeValueGoingBackwards", Class true); (T "TimeValueGoingForth", Class true);
    (T "ParseTimeImplementationError", Class true); (T "SameTimeValue", Class true); (T "BaseCleanTiStrategy", Class false);
    (T "BaseAccepts", Class false); (T "BaseSingleTable", Class false); (T "BaseMultiTable", Class false); (T "BaseSingleColumn", Class false);
    (T "BaseMultipleColumns", Class false); (T "BaseOffsetTi", Class false); (T "BaseNoOffsetTi", Class false);
    (T "BaseSingleFrequency", Class false); (T "BaseMultiFrequency", Class false) ].
Definition data_classes : list (text * member) :=
  [ (T "BaseGetDataStrategy", Class false); (T "BaseAccepts", Class false); (T "BaseSingleFrequency", Class false);
    (T "BaseMultiFrequency", Class false); (T "BaseContinuous", Class false); (T "BaseNonContinuous", Class false) ].
Definition period_range_classes : list (text * member) :=
  [ (T "BaseGetPeriodRangesStrategy", Class false); (T "GetPeriodRangesSingleFrequency", Class false); (T "GetPeriodRangesMultifrequency", Class false) ].
Definition scraper_classes : list (text * member) :=
  [ (T "Parameters", Class false); (T "TimeIndexNotClean", Class true); (T "BaseXlSeriesScraper", Class false); (T "ParameterDiscovery", Class false) ].
