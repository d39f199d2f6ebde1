(** Model of the letter names of the report: lulua/report.py:78-109 and the
    expressions of data/report/index.html that use them. *)
From Coq Require Import Ascii.
From Verif Require Import Base LayoutModel KlcModel.
Open Scope string_scope.
Open Scope list_scope.

(** [str.lower] of the letters A to Z; other characters with a lower case do not
    occur in the names of report.py:83-104 *)
Definition lower_ascii (c : ascii) : ascii :=
  let n := N_of_ascii c in if (N.leb 65 n && N.leb n 90)%bool then ascii_of_N (n + 32) else c.
Fixpoint slower (s : string) : string :=
  match s with EmptyString => EmptyString | String c s' => String (lower_ascii c) (slower s') end.
Definition lower_code (c : N) : N := if (N.leb 65 c && N.leb c 90)%bool then (c + 32)%N else c.
Definition tlower (t : text) : text := map lower_code t.

(** report.py:83-104: letterNames *)
Definition letterNames : list (string * (text * text)) := [
  ("Hamzah", ([72; 97; 109; 122; 97; 104], [1569]));
  ("Alif", ([7507; 65; 108; 105; 102], [1575]));
  ("Alifhamzah", ([7507; 65; 108; 105; 102; 45; 104; 97; 109; 122; 97; 104], [1575; 1620]));
  ("Wawhamzah", ([87; 97; 772; 119; 45; 104; 97; 109; 122; 97; 104], [1608; 1620]));
  ("Yahamzah", ([89; 97; 772; 7507; 45; 104; 97; 109; 122; 97; 104], [1610; 1620]));
  ("Ba", ([66; 97; 7507], [1576]));
  ("Ta", ([84; 97; 7507], [1578]));
  ("Tha", ([84; 817; 97; 7507], [1579]));
  ("Ra", ([82; 97; 7507], [1585]));
  ("Dal", ([68; 97; 772; 108], [1583]));
  ("Dhal", ([68; 817; 97; 772; 108], [1584]));
  ("Qaf", ([81; 97; 772; 102], [1602]));
  ("Lam", ([76; 97; 772; 109], [1604]));
  ("Lamalif", ([76; 97; 772; 109; 45; 7507; 97; 108; 105; 102], [1604; 1575]));
  ("Mim", ([77; 105; 772; 109], [1605]));
  ("Nun", ([78; 117; 772; 110], [1606]));
  ("Waw", ([87; 97; 772; 119], [1608]));
  ("Ya", ([89; 97; 772; 7507], [1610]));
  ("Tamarbutah", ([84; 97; 772; 7507; 32; 109; 97; 114; 98; 117; 772; 116; 803; 97; 104], [1577]));
  ("Alifmaqsurah", ([7507; 65; 108; 105; 102; 32; 109; 97; 113; 115; 803; 117; 772; 114; 97; 104], [1609]))]%N.

(** report.py:106 *)
Definition shown (romanized arabic : text) : text :=
  romanized ++ lit " <bdo lang=""ar"">(" ++ arabic ++ lit ")</bdo>".
(** report.py:105-109: one round of the loop; [lower] is [str.lower] of the values *)
Definition letter_round (lower : text -> text) (g : list (string * text)) (x : string * (text * text)) : res (list (string * text)) :=
  let '(k, (romanized, arabic)) := x in
  let g1 := dset g k (shown romanized arabic) in
  do v <- dgetM g1 k;
  let g2 := dset g1 (slower k) (lower v) in
  let g3 := dset g2 (k ++ "_")%string romanized in
  Ok (dset g3 (slower k ++ "_")%string (lower romanized)).
(** report.py:105-109: the loop *)
Definition letter_globals (lower : text -> text) (names : list (string * (text * text))) (g : list (string * text)) : res (list (string * text)) :=
  foldM (letter_round lower) names g.

(** index.html: the expressions that consist of a name, with their lines (lines 24 and 27 use a
    variable of a loop) *)
Definition letter_uses : list (nat * string) := [
  (141, "hamzah"); (143, "alifmaqsurah"); (232, "alif"); (232, "lam"); (232, "ya"); (232, "mim"); (233,
  "nun"); (339, "Alif"); (339, "lam"); (345, "alif"); (364, "hamzah"); (365, "alif"); (365, "waw"); (365,
  "ya"); (366, "alifhamzah"); (366, "wawhamzah"); (366, "yahamzah"); (369, "alifhamzah_"); (369, "alif_");
  (373, "hamzah_"); (381, "hamzah_"); (385, "hamzah_"); (389, "alif"); (389, "alifhamzah"); (392, "hamzah");
  (491, "hamzah"); (492, "alif"); (523, "alif"); (523, "ta"); (523, "waw"); (546, "tamarbutah"); (553, "ra");
  (579, "lamalif"); (584, "dal"); (584, "dhal"); (639, "alif"); (640, "lam"); (642, "tha"); (684, "alif");
  (684, "ya"); (689, "alif"); (689, "lam"); (689, "ya"); (690, "waw"); (718, "ya"); (721, "alif"); (722,
  "ya"); (722, "waw"); (757, "ba"); (757, "ta"); (758, "ra"); (792, "ya"); (897, "qaf"); (897, "ya")].
(** report.py:127-135, index.html:23, 26, 159-214, 404-424: the other variables of the page *)
Definition other_variables : list string :=
  ["corpus"; "corpustotal"; "layoutstats"; "bokehres"; "fingerOrder"; "Direction"; "f"; "c"; "count"; "stats"; "k"; "i";
   "hands"; "fingers"; "hand"; "handpct"; "finger"; "fingerpct"; "fingerwidth"; "loop"; "fingerhandstats"].
(** The globals of jinja2 environments (jinja2/defaults.py, not part of the repository) *)
Definition jinja_globals : list string := ["range"; "dict"; "lipsum"; "cycler"; "joiner"; "namespace"].
