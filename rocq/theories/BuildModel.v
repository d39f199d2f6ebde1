(** Model of the build of the report: the statements gen.sh writes, for any corpora
    and files found, and how ninja runs them.  Names are assumed to contain neither
    blanks nor characters that are special to the shell or ninja. *)
From Verif Require Import Base CurveModel.
Open Scope string_scope.
Open Scope list_scope.

(** A build statement: outputs, rule, inputs, implicit and order-only dependencies,
    variables *)
Record stmt := mkStmt {
  outs : list string; rule : string; ins : list string; imps : list string; ords : list string;
  vars : list (string * list string) }.
Definition var (s : stmt) (x : string) : list string := match dget (vars s) x with Some v => v | None => [] end.
(** What has to be there before the statement is run *)
Definition needs (s : stmt) : list string := ins s ++ imps s ++ ords s.

(** * gen.sh *)
(** gen.sh:13-18 *)
Definition reportdir (f : string) : string := "_build/report" ++ f.
Definition tempdir (f : string) : string := "_build/_temp" ++ f.
Definition statsdir (f : string) : string := "_build/_stats" ++ f.
Definition datadir (f : string) : string := "lulua/data" ++ f.
Definition corpusdir (f : string) : string := "corpus" ++ f.
(** gen.sh:19-21 *)
Definition wikiextractor : string := "3rdparty/wikiextractor/WikiExtractor.py".
Definition osmconvert : string := "3rdparty/osmctools/src/osmconvert".
Definition fontdir (f : string) : string := "3rdparty/plex/IBM-Plex-Sans-Arabic/fonts/complete/woff2/" ++ f.

(** A directory; a statement with one output after a directory *)
Definition mkdir (d : string) (i : list string) : stmt := mkStmt [d] "mkdir" i [] [] [].
Definition after (dir out r : string) (i : list string) : stmt := mkStmt [out] r i [] [dir] [].
Definition with_layout (l : string) (s : stmt) : stmt := mkStmt (outs s) (rule s) (ins s) (imps s) (ords s) (("layout", [l]) :: vars s).

(** gen.sh:136-158 *)
Definition fixed_stmts : list stmt := [
  mkdir (reportdir "") [];
  mkdir (reportdir "/fonts") [];
  mkdir (tempdir "") [];
  after (reportdir "") (reportdir "/letterfreq.json") "letterfreq" [statsdir "/ar-lulua/all.pickle"];
  after (reportdir "") (reportdir "/style.css") "cp" [datadir "/report/style.css"];
  after (reportdir "") (reportdir "/lulua-logo.svg") "cp" [datadir "/report/lulua-logo.svg"];
  after (tempdir "") (tempdir "/lulua.combined") "wordlist" [statsdir "/ar-lulua/all.pickle"];
  after (reportdir "") (reportdir "/lulua.combined.gz") "gz" [tempdir "/lulua.combined"];
  after (reportdir "/fonts") (reportdir "/fonts/IBMPlexSansArabic-Regular.woff2") "cp" [fontdir "/IBMPlexSansArabic-Regular.woff2"];
  after (reportdir "/fonts") (reportdir "/fonts/IBMPlexSansArabic-Thin.woff2") "cp" [fontdir "/IBMPlexSansArabic-Thin.woff2"];
  mkStmt [osmconvert] "configure-make" ["3rdparty/osmctools"] [] [] [];
  with_layout "" (after (reportdir "") (reportdir "/lulua_ar.kbd") "render-klavaro" []);
  mkdir (tempdir "/winkbd") [datadir "/winkbd"]].
(** gen.sh:161-162 *)
Definition winkbd_stmt (f : string) : stmt :=
  after (tempdir "/winkbd") (tempdir ("/winkbd/" ++ f)) "cp" [datadir ("/winkbd/" ++ f)].
(** gen.sh:163-165: w64infiles *)
Definition w64infiles (winkbd : list string) : list string :=
  map (fun f => tempdir ("/winkbd/" ++ f)) winkbd ++ [tempdir "/winkbd/keyboard.c"].
(** gen.sh:173 *)
Definition w64zipfile : list string :=
  ["System32/kbdarlulua.dll"; "SysWOW64/kbdarlulua.dll"; "README.txt"; "lulua.reg"; "install.bat"].
(** gen.sh:167-180 *)
Definition driver_stmts (winkbd : list string) : list stmt := [
  after (tempdir "/winkbd") (tempdir "/winkbd/keyboard.c") "render-winkbd" [];
  mkdir (tempdir "/ar-lulua-w64") [];
  mkStmt [tempdir "/winkbd/System32/kbdarlulua.dll"; tempdir "/winkbd/SysWOW64/kbdarlulua.dll"] "ninjaC" [] (w64infiles winkbd) []
    [("dir", [tempdir "/winkbd"])]] ++
  map (fun f => after (tempdir "/ar-lulua-w64") (tempdir ("/ar-lulua-w64/" ++ f)) "cp" [tempdir ("/winkbd/" ++ f)]) w64zipfile ++
  [mkStmt [reportdir "/ar-lulua-w64.zip"] "zipR" [tempdir "/ar-lulua-w64"] (map (fun f => tempdir ("/ar-lulua-w64/" ++ f)) w64zipfile) [] []].

(** gen.sh:184-188: the files found *)
Record found := mkFound { bbcarabic : list string; aljazeera : list string; un : list string; opensubtitles : list string; hindawi : list string }.
(** gen.sh:195-217: corpus, rule and files *)
Definition corpus_rules (fd : found) : list (string * (string * list string)) := [
  ("bbcarabic", ("write-bbcarabic", bbcarabic fd));
  ("aljazeera", ("write-aljazeera", aljazeera fd));
  ("hindawi", ("write-epub", hindawi fd));
  ("tanzil-quaran", ("write-tanzil", [corpusdir "/tanzil-quaran/plain.txt"]));
  ("arwiki", ("write-arwiki", [corpusdir "/arwiki/arwiki-20190701-pages-articles.xml.bz2"]));
  ("osm", ("write-osm", [corpusdir "/osm/planet-191104.osm.pbf"]));
  ("un-v1.0-tei", ("write-tei2", un fd));
  ("opensubtitles-2018", ("write-opensubtitles", opensubtitles fd))].
Definition pickle (l c : string) : string := statsdir ("/" ++ l ++ "/" ++ c ++ ".pickle").
Definition write_stmt (l : string) (cr : string * (string * list string)) : stmt :=
  mkStmt [pickle l (fst cr)] (fst (snd cr)) (snd (snd cr)) [] (statsdir ("/" ++ l) :: (if String.eqb (fst cr) "osm" then [osmconvert] else []))
    [("layout", [l])].
(** gen.sh:219 *)
Definition all_corpora : list string :=
  ["bbcarabic"; "aljazeera"; "tanzil-quaran"; "arwiki"; "osm"; "hindawi"; "un-v1.0-tei"; "opensubtitles-2018"].
(** gen.sh:191-244: statements of a layout *)
Definition layout_stmts (fd : found) (l : string) : list stmt :=
  mkdir (statsdir ("/" ++ l)) [] :: map (write_stmt l) (corpus_rules fd) ++ [
  after (statsdir ("/" ++ l)) (pickle l "all") "combine" (map (pickle l) all_corpora);
  with_layout l (after (reportdir "") (reportdir ("/" ++ l ++ ".svg")) "render-svg" []);
  with_layout l (after (tempdir "") (tempdir ("/" ++ l ++ "-heat.yaml")) "analyze-heat" [pickle l "all"]);
  with_layout l (after (tempdir "") (tempdir ("/" ++ l ++ "-triadeffort.pickle")) "analyze-triadeffortdata" [pickle l "all"]);
  with_layout l (after (reportdir "") (reportdir ("/" ++ l ++ "-heat.svg")) "render-svg-heat" [tempdir ("/" ++ l ++ "-heat.yaml")]);
  with_layout l (after (tempdir "") (tempdir ("/" ++ l ++ "-print.svg")) "render-svg-print" []);
  after (reportdir "") (reportdir ("/" ++ l ++ ".pdf")) "svg2pdf" [tempdir ("/" ++ l ++ "-print.svg")];
  with_layout l (after (tempdir "") (tempdir ("/" ++ l ++ "-layoutstats.pickle")) "analyze-layoutstats" [pickle l "all"])].
(** gen.sh:246-253 *)
Definition xmodmap_stmt (l : string) : stmt := with_layout l (after (reportdir "") (reportdir ("/" ++ l ++ ".xmodmap")) "render-xmodmap" []).
Definition layoutsXmodmap : list string := ["ar-lulua"].
(** gen.sh:256-265 *)
Definition metadata (c : string) : string := corpusdir ("/" ++ c ++ "/metadata.yaml").
Definition metafile (c : string) : string := tempdir ("/metadata-" ++ c ++ ".yaml").
Definition corpus_stmt (c : string) : stmt :=
  mkStmt [metafile c] "analyze-corpusstats" [pickle "ar-lulua" c; metadata c] [] [tempdir ""; metadata c]
    [("metadata", [metadata c]); ("stats", [pickle "ar-lulua" c])].
(** gen.sh:243 *)
Definition layoutstatsfiles : list string := map (fun l => tempdir ("/" ++ l ++ "-layoutstats.pickle")) gen_layouts.
(** gen.sh:267-279 *)
Definition report_stmts (corpora : list string) : list stmt := [
  after (reportdir "") (reportdir "/triadeffort.json") "analyze-triadeffortplot" (map (fun l => tempdir ("/" ++ l ++ "-triadeffort.pickle")) gen_layouts);
  mkStmt ["always"] "phony" [] [] [] [];
  mkStmt [reportdir "/index.html"] "report" [] ["always"] (reportdir "" :: map metafile corpora ++ layoutstatsfiles)
    [("corpus", map metafile corpora); ("layoutstats", layoutstatsfiles)]].
(** gen.sh: the file; [corpora] is [ls corpus], [winkbd] is [ls lulua/data/winkbd] *)
Definition gen_sh (corpora winkbd : list string) (fd : found) : list stmt :=
  fixed_stmts ++ map winkbd_stmt winkbd ++ driver_stmts winkbd ++ flat_map (layout_stmts fd) gen_layouts ++
  map xmodmap_stmt layoutsXmodmap ++ map corpus_stmt corpora ++ report_stmts corpora.

(** lulua/data/winkbd/build.ninja: statements of the driver, run in the directory of the sources *)
Definition driver_ninja : list stmt := [
  mkStmt ["System32/kbdarlulua.dll"] "cc" ["keyboard.c"; "keyboard.def"; "rc64.o"] ["linker.ld"] ["System32"] [("bits", ["64"])];
  mkStmt ["SysWOW64/kbdarlulua.dll"] "cc" ["keyboard.c"; "keyboard.def"; "rc32.o"] ["linker.ld"] ["SysWOW64"] [("bits", ["32"])];
  mkStmt ["rc64.o"] "res" ["keyboard.rc"] [] [] [("target", ["pe-x86-64"])];
  mkStmt ["rc32.o"] "res" ["keyboard.rc"] [] [] [("target", ["pe-i386"])];
  mkStmt ["System32"] "mkdir" [] [] [] [];
  mkStmt ["SysWOW64"] "mkdir" [] [] [] []].
Definition driver_sources : list string :=
  filter (fun f => negb (mem f (flat_map outs driver_ninja))) (flat_map needs driver_ninja).

(** * gen.sh:34-133: what the commands of the rules read *)
Definition find_rules : list string :=
  ["write-bbcarabic"; "write-aljazeera"; "write-epub"; "write-tanzil"; "write-tei2"; "write-opensubtitles"].
(** Rules with -l ar-lulua; the others use the variable layout *)
Definition lulua_rules : list string :=
  ["letterfreq"; "analyze-corpusstats"; "wordlist"; "analyze-triadeffortplot"; "render-winkbd"; "render-klavaro"].
Definition layout_rules : list string :=
  ["render-svg"; "render-svg-print"; "render-svg-heat"; "render-xmodmap"; "analyze-heat"; "write-arwiki"; "write-osm";
   "analyze-layoutstats"; "analyze-triadeffortdata"] ++ find_rules.
(** The layout a command works with *)
Definition layout_of (s : stmt) : option string :=
  if mem (rule s) lulua_rules then Some "ar-lulua"
  else if mem (rule s) layout_rules then match var s "layout" with [l] => Some l | _ => None end
  else None.
Definition layout_file (l : string) : string := datadir ("/layouts/" ++ l ++ ".yaml").
(** lulua/render.py:261-298: renderSvg embeds two fonts and a style sheet (590-594, gen.sh:41) *)
Definition plex (w : string) : string := "3rdparty/plex/IBM-Plex-Sans-Arabic/fonts/complete/woff2/IBMPlexSansArabic-" ++ w ++ ".woff2".
Definition svg_reads (r : string) : list string :=
  if String.eqb r "render-svg-print" then [plex "Thin"; plex "Regular"; datadir "/render-svg-print.css"]
  else if mem r ["render-svg"; "render-svg-heat"] then [plex "Thin"; plex "Regular"; datadir "/render-svg.css"]
  else [].
Definition prefixed (p s : string) : bool := String.prefix p s.
(** What is read, apart from the package itself; [all] are the outputs of all statements.
    [find] without arguments lists the working directory, zipR and ninjaC read a directory. *)
Definition reads (all : list string) (s : stmt) : list string :=
  (match layout_of s with Some l => [layout_file l] | None => [] end) ++ svg_reads (rule s) ++
  (if mem (rule s) find_rules then match ins s with [] => all | i => i end
   else if String.eqb (rule s) "write-arwiki" then wikiextractor :: ins s
   else if String.eqb (rule s) "write-osm" then osmconvert :: ins s
   else if String.eqb (rule s) "analyze-corpusstats" then var s "metadata" ++ var s "stats"
   else if String.eqb (rule s) "report" then datadir "/report/index.html" :: var s "corpus" ++ var s "layoutstats"
   else if String.eqb (rule s) "zipR" then flat_map (fun d => filter (prefixed (d ++ "/")) all) (ins s)
   else if String.eqb (rule s) "ninjaC" then
     flat_map (fun d => map (fun f => (d ++ "/" ++ f)%string) ("build.ninja" :: driver_sources)) (var s "dir")
   else ins s).
(** gen.sh:30-31, 55-85: pool write *)
Definition pooled (s : stmt) : bool := prefixed "write-" (rule s).

(** lulua/data/report/index.html: files the page refers to (29, 36, 50, 97-108, 430-911 and
    965-967), style.css:23-30: files the style sheet refers to *)
Definition page_refs : list string :=
  ["style.css"; "lulua-logo.svg"; "ar-lulua.svg"; "ar-lulua.pdf"; "ar-lulua-w64.zip"; "ar-lulua.xmodmap"; "lulua_ar.kbd";
   "ar-lulua-heat.svg"; "ar-asmo663-heat.svg"; "ar-osx-heat.svg"; "ar-linux-heat.svg"; "ar-alramly-heat.svg"; "ar-idlebi-heat.svg";
   "ar-malas-heat.svg"; "ar-khorshid-heat.svg"; "ar-osman-heat.svg"; "ar-qtaish-heat.svg"; "ar-ergoarabic-heat.svg"; "ar-phonetic-heat.svg"] ++
  map (fun p => p ++ ".json")%string ["letterfreq"; "triadeffort"] ++
  ["fonts/IBMPlexSansArabic-Thin.woff2"; "fonts/IBMPlexSansArabic-Regular.woff2"].
(** index.html:99: the file of the archive of the driver users are told to read *)
Definition page_archive : list string := ["INSTALL.txt"].

(** * ninja *)
Section Ninja.
  Context {V : Type}.
  Variable g : list stmt.
  (** what a command reads, and what it writes to an output *)
  Variable rds : stmt -> list string.
  Variable run : stmt -> list (option V) -> string -> V.
  Variable pool : stmt -> bool.
  Definition files := string -> option V.
  Inductive phase := Started | Loaded (vs : list (option V)).
  (** Statements are referred to by number. *)
  Record conf := mkConf { fs : files; running : list (nat * phase); finished : list nat }.
  Definition write (s : stmt) (vs : list (option V)) (f : files) : files :=
    fun p => if mem p (outs s) then Some (run s vs p) else f p.
  (** Commands run in parallel, at most one of the pool; a running command reads its
      files at any time and may leave anything in its outputs until it has finished. *)
  Inductive nstep : conf -> conf -> Prop :=
    | n_start f r d i s : nth_error g i = Some s -> ~ In i d -> ~ In i (map fst r) ->
        (forall p j t, In p (needs s) -> nth_error g j = Some t -> In p (outs t) -> In j d) ->
        (pool s = true -> forall j t, In j (map fst r) -> nth_error g j = Some t -> pool t = false) ->
        nstep (mkConf f r d) (mkConf f ((i, Started) :: r) d)
    | n_read f r1 r2 d i s : nth_error g i = Some s ->
        nstep (mkConf f (r1 ++ (i, Started) :: r2) d) (mkConf f (r1 ++ (i, Loaded (map f (rds s))) :: r2) d)
    | n_finish f r1 r2 d i s vs : nth_error g i = Some s ->
        nstep (mkConf f (r1 ++ (i, Loaded vs) :: r2) d) (mkConf (write s vs f) (r1 ++ r2) (i :: d)).
  Inductive nnoise : conf -> conf -> Prop :=
    | n_noise f f' r d i s ph : In (i, ph) r -> nth_error g i = Some s -> (forall p, ~ In p (outs s) -> f' p = f p) ->
        nnoise (mkConf f r d) (mkConf f' r d).
  Definition nfirst (f : files) : conf := mkConf f [] [].
End Ninja.
