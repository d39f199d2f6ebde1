(** Model of the report page: lulua/report.py:111-135 and the parts of
    data/report/index.html that work on statistics.  Quotients are exact, the
    result are the numbers before formatting. *)
From Coq Require Import QArith.
From Verif Require Import Base LayoutModel TextModel WriterModel StatsModel PlotModel ReportModel.
Close Scope Q_scope.
Open Scope string_scope.
Open Scope list_scope.

(** jinja2.UndefinedError: using something that is missing *)
Definition UndefinedError : exn := PlainException.

(** layout.py:34-36, 42-48: the members in order *)
Definition Direction : list direction := [LEFT; RIGHT].
Definition FingerType : list finger := [LITTLE; RING; MIDDLE; INDEX; THUMB].
(** report.py:133 *)
Definition fingerOrder (h : direction) : list finger :=
  match h with LEFT => FingerType | RIGHT => rev FingerType end.

(** index.html:404-426: macro fingerhandstats.  For every hand its percentage,
    and for every finger width and percentage. *)
Definition finger_box (r : lstats) (h : direction) (f : finger) : res (finger * Q * Q) :=
  do n <- of_opt UndefinedError (dget (ls_fingers r) (h, f));
  do pct <- truediv n (ls_presses r);
  do all <- of_opt UndefinedError (dget (ls_hands r) h);
  do width <- truediv n all;
  Ok (f, width * 100, pct * 100)%Q.
Definition hand_box (r : lstats) (h : direction) : res (direction * Q * list (finger * Q * Q)) :=
  do n <- of_opt UndefinedError (dget (ls_hands r) h);
  do pct <- truediv n (ls_presses r);
  do fs <- mapM (finger_box r h) (fingerOrder h);
  Ok (h, pct * 100, fs)%Q.
Definition fingerhandstats (r : lstats) : res (list (direction * Q * list (finger * Q * Q))) :=
  mapM (hand_box r) Direction.

(** report.py:111-114: a metadata file is a list of documents, some of them empty
    (None); of a document only its key 'stats' is kept, if present, with
    characters and words. *)
Definition corpus (files : list (list (option (option (Z * Z))))) : list (option (Z * Z)) :=
  flat_map (fun f => flat_map (fun d => match d with Some x => [x] | None => [] end) f) files.
(** stats.py:396-406: what corpusStats writes; the separator starts another document,
    which is empty. *)
Definition metadata (s : allstats) : list (option (option (Z * Z))) := [Some (Some (corpusStats s)); None].
(** report.py:121-123: words and characters *)
Definition corpustotal (c : list (option (Z * Z))) : res (Z * Z) :=
  do words <- mapM (fun d => do x <- of_opt KeyError d; Ok (snd x)) c;
  do characters <- mapM (fun d => do x <- of_opt KeyError d; Ok (fst x)) c;
  Ok (zsum words, zsum characters).
(** report.py:115-119 *)
Definition layout_dict (l : list (string * lstats)) : list (string * lstats) := dict_of l.

(** index.html:431, 533, 562, 593, 652, 698, 732, 767, 802, 855, 884, 912: the tables of the page *)
Definition tables : list string :=
  ["ar-lulua"; "ar-asmo663"; "ar-osx"; "ar-linux"; "ar-alramly"; "ar-idlebi"; "ar-malas"; "ar-khorshid";
   "ar-osman"; "ar-qtaish"; "ar-ergoarabic"; "ar-phonetic"].
Definition table (stats : list (string * lstats)) (name : string) :=
  do r <- of_opt UndefinedError (dget stats name); fingerhandstats r.

(** The page: totals of the corpus (index.html:178-181, 212-215, approx is in
    ReportModel), index.html:382, 391 and the tables *)
Record page := mkPage {
  pg_words : Z; pg_characters : Z; pg_impact : Q; pg_alef : text;
  pg_tables : list (list (direction * Q * list (finger * Q * Q))) }.
Definition to_frac (q : Q) : frac := let r := Qred q in (Qnum r, Zpos (Qden r)).
Definition report (files : list (list (option (option (Z * Z))))) (stats : list (string * lstats)) : res page :=
  let layoutstats := layout_dict stats in
  do t <- corpustotal (corpus files);
  do osx <- of_opt UndefinedError (dget layoutstats "ar-osx");
  do f <- fraction (to_frac (ls_hamzaOnAlef osx)) 10;
  do ts <- mapM (table layoutstats) tables;
  Ok (mkPage (fst t) (snd t) (ls_hamzaImpact osx * 100)%Q f ts).
