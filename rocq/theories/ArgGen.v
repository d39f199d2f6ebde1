(** Command lines of the programs in the rules of gen.sh. *)
From Coq Require Import Ascii.
From Verif Require Import Base CurveModel BuildModel ArgModel ArgSpec ArgProofs ArgAccept ArgSound ArgPrograms.
Open Scope string_scope.
Open Scope list_scope.
Unset Implicit Arguments.

(** * Model: the words the shell passes to the programs *)
Definition run := (program * list string)%type.
(** "--heatmap=$in" *)
Definition glued (o : string) (l : list string) : list string := match l with [] => [o] | x :: l' => (o ++ x)%string :: l' end.
Definition render (l args out : list string) : run := (render_program, ["-l"] ++ l ++ args ++ out).
Definition analyze (args : list string) : run := (analyze_program, args).
(** gen.sh:49-85: lulua-write and the following lulua-analyze *)
Definition write_run (filters : list string) (s : stmt) : list run :=
  [(write_program, var s "layout" ++ filters); analyze ["combine"]].
(** gen.sh:37-130; $in, $out, $layout, … stand for any number of words *)
Definition commands : list (string * (stmt -> list run)) := [
  ("render-svg", fun s => [render (var s "layout") ["svg"] (outs s)]);
  ("render-svg-print", fun s => [render (var s "layout") ["svg"; "-s"; "lulua/data/render-svg-print.css"] (outs s)]);
  ("render-svg-heat", fun s => [render (var s "layout") ("svg" :: glued "--heatmap=" (ins s)) (outs s)]);
  ("render-xmodmap", fun s => [render (var s "layout") ["xmodmap"] (outs s)]);
  ("analyze-heat", fun s => [analyze (["-l"] ++ var s "layout" ++ ["keyheatmap"])]);
  ("write-bbcarabic", write_run ["file"; "brotli"; "tar"; "bbcarabic"]);
  ("write-aljazeera", write_run ["file"; "brotli"; "tar"; "aljazeera"]);
  ("write-epub", write_run ["epub"]);
  ("write-tanzil", write_run ["file"; "text"]);
  ("write-tei2", write_run ["file"; "brotli"; "tar"; "xml"; "tei2"]);
  ("write-opensubtitles", write_run ["file"; "brotli"; "tar"; "xml"; "opensubtitles"]);
  ("write-arwiki", write_run ["json"]);
  ("write-osm", write_run ["lines"]);
  ("combine", fun s => [analyze ["combine"]]);
  ("letterfreq", fun s => [analyze ["-l"; "ar-lulua"; "letterfreq"]]);
  ("analyze-layoutstats", fun s => [analyze (["-l"] ++ var s "layout" ++ ["layoutstats"])]);
  ("analyze-corpusstats", fun s => [analyze (["-l"; "ar-lulua"; "corpusstats"] ++ var s "metadata")]);
  ("wordlist", fun s => [analyze ["-l"; "ar-lulua"; "latinime"]]);
  ("analyze-triadeffortdata", fun s => [analyze (["-l"] ++ var s "layout" ++ ["triadeffortdata"])]);
  ("analyze-triadeffortplot", fun s => [analyze ["-l"; "ar-lulua"; "triadeffortplot"]]);
  ("report", fun s => [(report_program, ["-c"] ++ var s "corpus" ++ ["-l"] ++ var s "layoutstats")]);
  ("render-winkbd", fun s => [render ["ar-lulua"] ["winkbd"] (outs s)]);
  ("render-klavaro", fun s => [render ["ar-lulua"] ["klavaro"] (outs s)])].
Definition runs (s : stmt) : list run := match dget commands (rule s) with Some f => f s | None => [] end.

(** * Spec: what the programs have to be told *)
Definition facts := list (string * value).
Definition told (p : program) (f : facts) (accepts : conv -> string -> bool) (r : run) : Prop :=
  fst r = p /\ exists ns, parse_args accepts p (snd r) = Done ns /\ forall k v, In (k, v) f -> dget ns k = Some v.
Definition calls (f : string) (l : value) : facts := [("func", VConst f); ("layout", l); ("keyboard", strv "ibmpc105")].
Definition svg (l out : string) (style heat : value) : facts := calls "renderSvg" (strv l) ++ [("style", style); ("heatmap", heat); ("output", strv out)].
Definition own_style : value := VConst "data/render-svg.css".
Definition written (l : string) (filters : list string) : facts :=
  [("layout", strv l); ("keyboard", strv "ibmpc105"); ("filter", VList (map strv filters)); ("benchmark", VBool false); ("verbose", VBool false); ("jobs", VConst "cpu_count ()")].
Definition combined : program * facts := (analyze_program, calls "combine" VNone).
(** The formats of the corpora *)
Definition formats : list (string * list string) := [
  ("bbcarabic", ["file"; "brotli"; "tar"; "bbcarabic"]); ("aljazeera", ["file"; "brotli"; "tar"; "aljazeera"]);
  ("hindawi", ["epub"]); ("tanzil-quaran", ["file"; "text"]); ("arwiki", ["json"]); ("osm", ["lines"]);
  ("un-v1.0-tei", ["file"; "brotli"; "tar"; "xml"; "tei2"]); ("opensubtitles-2018", ["file"; "brotli"; "tar"; "xml"; "opensubtitles"])].
(** How the file is made; other files are made without these programs *)
Inductive made (corpora : list string) : string -> list (program * facts) -> Prop :=
| made_stats l c f : In l gen_layouts -> In (c, f) formats ->
    made corpora ("_build/_stats/" ++ l ++ "/" ++ c ++ ".pickle") [(write_program, written l f); combined]
| made_all l : In l gen_layouts -> made corpora ("_build/_stats/" ++ l ++ "/all.pickle") [combined]
| made_svg l : In l gen_layouts -> let o := ("_build/report/" ++ l ++ ".svg")%string in
    made corpora o [(render_program, svg l o own_style VNone)]
| made_heatmap l : In l gen_layouts -> made corpora ("_build/_temp/" ++ l ++ "-heat.yaml") [(analyze_program, calls "keyHeatmap" (strv l))]
| made_heat l : In l gen_layouts -> let o := ("_build/report/" ++ l ++ "-heat.svg")%string in
    made corpora o [(render_program, svg l o own_style (VConv CYaml ("_build/_temp/" ++ l ++ "-heat.yaml")))]
| made_print l : In l gen_layouts -> let o := ("_build/_temp/" ++ l ++ "-print.svg")%string in
    made corpora o [(render_program, svg l o (VConv CFile "lulua/data/render-svg-print.css") VNone)]
| made_effort l : In l gen_layouts -> made corpora ("_build/_temp/" ++ l ++ "-triadeffort.pickle") [(analyze_program, calls "triadEffortData" (strv l))]
| made_layoutstats l : In l gen_layouts -> made corpora ("_build/_temp/" ++ l ++ "-layoutstats.pickle") [(analyze_program, calls "layoutstats" (strv l))]
| made_xmodmap : let o := "_build/report/ar-lulua.xmodmap" in made corpora o [(render_program, calls "renderXmodmap" (strv "ar-lulua") ++ [("output", strv o)])]
| made_klavaro : let o := "_build/report/lulua_ar.kbd" in made corpora o [(render_program, calls "renderKlavaro" (strv "ar-lulua") ++ [("output", strv o)])]
| made_winkbd : let o := "_build/_temp/winkbd/keyboard.c" in made corpora o [(render_program, calls "renderWinKbd" (strv "ar-lulua") ++ [("output", strv o)])]
| made_letters : made corpora ("_build/report/letterfreq.json") [(analyze_program, calls "letterfreq" (strv "ar-lulua"))]
| made_words : made corpora ("_build/_temp/lulua.combined") [(analyze_program, calls "latinImeDict" (strv "ar-lulua"))]
| made_plot : made corpora ("_build/report/triadeffort.json") [(analyze_program, calls "triadEffortPlot" (strv "ar-lulua"))]
| made_corpus c : In c corpora -> made corpora ("_build/_temp/metadata-" ++ c ++ ".yaml")
    [(analyze_program, calls "corpusStats" (strv "ar-lulua") ++ [("metadata", VConv CFile ("corpus/" ++ c ++ "/metadata.yaml"))])]
| made_report : made corpora ("_build/report/index.html")
    [(report_program, [("corpus", VList (map (fun c => strv ("_build/_temp/metadata-" ++ c ++ ".yaml")) corpora));
                       ("layoutstats", VList (map (fun l => strv ("_build/_temp/" ++ l ++ "-layoutstats.pickle")) gen_layouts))])].
(** Files that can be read when they are needed *)
Definition readable_files (corpora : list string) (accepts : conv -> string -> bool) : Prop :=
  accepts CFile "lulua/data/render-svg-print.css" = true /\
  (forall l, In l gen_layouts -> accepts CYaml ("_build/_temp/" ++ l ++ "-heat.yaml")%string = true) /\
  (forall c, In c corpora -> accepts CFile ("corpus/" ++ c ++ "/metadata.yaml")%string = true).

(** * Proofs *)
Section Gen.
  Variable accepts : conv -> string -> bool.
  Lemma layout_plain l : In l gen_layouts -> plain l.
  Proof.
    intros H. assert (forallb (fun l => negb (starts_dash l)) gen_layouts = true) as Q by (vm_compute; reflexivity).
    pose proof (proj1 (forallb_forall _ _) Q l H) as Q'. cbv beta in Q'. unfold plain. now destruct (starts_dash l).
  Qed.
  Lemma fits_layout pr l : In layout_opt (p_actions (pr_main pr)) -> plain l -> Forall (fits (pr_main pr)) [Given "-l" l].
  Proof. intros H P. constructor; [|constructor]. exists layout_opt. split; [exact H|]. split; [left; reflexivity|]. repeat split; auto. Qed.
  Lemma analyze_plain pre cmd sp : In (cmd, sp) (pr_subs analyze_program) -> positionals sp = [] -> Forall (fits (pr_main analyze_program)) pre -> Forall (good accepts (pr_main analyze_program)) pre ->
    exists ns, parse_args accepts analyze_program (flat_map words pre ++ [cmd]) = Done ns /\ command_values analyze_program pre sp [] ns.
  Proof.
    intros S P F G. destruct (analyze_line accepts pre cmd sp [] F S P ltac:(constructor)) as [K _]. apply K. split; [exact G|constructor].
  Qed.
  Lemma analyze_layout cmd f : In (cmd, mkParser [help_action] (func f)) (pr_subs analyze_program) -> forall l, plain l ->
    told analyze_program (calls f (strv l)) accepts (analyze ["-l"; l; cmd]).
  Proof.
    intros S l P. split; [reflexivity|]. pose proof (fits_layout analyze_program l ltac:(right; left; reflexivity) P) as F.
    destruct (analyze_plain [Given "-l" l] cmd _ S eq_refl F) as [ns [E [V [_ Vf]]]].
    { constructor; [|constructor]. intros a [<-|[<-|[<-|[<-|[]]]]] Ho; cbn in Ho; (repeat destruct Ho as [Ho|Ho]; try discriminate Ho; try now elim Ho).
      constructor; [|constructor]. split; [now left|exact I]. }
    exists ns. split; [exact E|]. intros k v [K|[K|[K|[]]]]; injection K as <- <-.
    - exact Vf.
    - exact (V layout_opt VNone ltac:(right; left; reflexivity) ltac:(intros Q; discriminate Q) eq_refl).
    - exact (V keyboard_opt (strv "ibmpc105") ltac:(right; right; left; reflexivity) ltac:(intros Q; discriminate Q) eq_refl).
  Qed.
  Lemma render_layout cmd sp f items l o extra : In (cmd, sp) (pr_subs render_program) -> dget (p_defaults sp) "func" = Some (VConst f) -> plain l -> plain o ->
    Forall (fits sp) items -> Forall (good accepts sp) items ->
    (forall k v, In (k, v) extra -> exists a d, In a (p_actions sp) /\ a_opts a <> [] /\ a_default a = Some d /\ a_dest a = k /\ expected a d items = v) ->
    told render_program (calls f (strv l) ++ extra ++ [("output", strv o)]) accepts (render [l] (cmd :: flat_map words items) [o]).
  Proof.
    intros S Df P Po Fi Gi X. split; [reflexivity|]. pose proof (fits_layout render_program l ltac:(right; left; reflexivity) P) as F.
    destruct (render_line accepts [Given "-l" l] cmd sp items o F S Fi Po) as [K _]. destruct K as [ns [E [[V [W Vf]] Vo]]].
    { split; [|exact Gi]. constructor; [|constructor]. intros a [<-|[<-|[<-|[<-|[<-|[]]]]]] Ho; cbn in Ho; (repeat destruct Ho as [Ho|Ho]; try discriminate Ho; try now elim Ho).
      constructor; [|constructor]. split; [now left|exact I]. }
    exists ns. split; [exact E|]. intros k v I. apply in_app_iff in I. destruct I as [[K|[K|[K|[]]]]|I]; [injection K as <- <- ..|].
    - rewrite Vf. exact Df.
    - exact (V layout_opt VNone ltac:(right; left; reflexivity) ltac:(intros Q; discriminate Q) eq_refl).
    - exact (V keyboard_opt (strv "ibmpc105") ltac:(right; right; left; reflexivity) ltac:(intros Q; discriminate Q) eq_refl).
    - apply in_app_iff in I. destruct I as [I|[I|[]]]; [|injection I as <- <-; exact Vo].
      destruct (X k v I) as [a [d [A1 [A2 [A3 [A4 A5]]]]]]. rewrite <- A4, <- A5. now apply W.
  Qed.
  Lemma combine_told : told analyze_program (calls "combine" VNone) accepts (analyze ["combine"]).
  Proof.
    split; [reflexivity|]. destruct (analyze_plain [] "combine" (mkParser [help_action] (func "combine")) ltac:(right; left; reflexivity) eq_refl ltac:(constructor) ltac:(constructor)) as [ns [E [V [_ Vf]]]].
    exists ns. split; [exact E|]. intros k v [K|[K|[K|[]]]]; injection K as <- <-.
    - exact Vf.
    - exact (V layout_opt VNone ltac:(right; left; reflexivity) ltac:(intros Q; discriminate Q) eq_refl).
    - exact (V keyboard_opt (strv "ibmpc105") ltac:(right; right; left; reflexivity) ltac:(intros Q; discriminate Q) eq_refl).
  Qed.
  Lemma write_told l f : plain l -> f <> [] -> Forall plain f -> incl f filterAvail -> told write_program (written l f) accepts (write_program, [l] ++ f).
  Proof.
    intros P N Pf I. split; [reflexivity|]. destruct (write_line accepts [] l [] f [] ltac:(constructor) P N Pf) as [K _].
    destruct (K (conj (Forall_nil _) I)) as [ns [E [V [Vl Vf]]]]. cbn [flat_map app] in E. rewrite app_nil_r in E.
    exists ns. split; [exact E|]. intros k v H. cbn [written In] in H.
    destruct H as [H|[H|[H|[H|[H|[H|[]]]]]]]; injection H as <- <-.
    - exact Vl.
    - exact (V keyboard_opt (strv "ibmpc105") ltac:(do 3 right; left; reflexivity) ltac:(intros Q; discriminate Q) eq_refl).
    - exact Vf.
    - exact (V (flag ["--benchmark"] "benchmark" "Benchmark filter, no stats") (VBool false) ltac:(do 1 right; left; reflexivity) ltac:(intros Q; discriminate Q) eq_refl).
    - exact (V (flag ["-v"; "--verbose"] "verbose" "Enable debugging output") (VBool false) ltac:(do 4 right; left; reflexivity) ltac:(intros Q; discriminate Q) eq_refl).
    - exact (V (opt ["-j"; "--jobs"] "jobs" CInt (VConst "cpu_count ()") "Number of parallel jobs") (VConst "cpu_count ()") ltac:(do 2 right; left; reflexivity) ltac:(intros Q; discriminate Q) eq_refl).
  Qed.
  Lemma corpus_told l m : plain l -> plain m -> accepts CFile m = true ->
    told analyze_program (calls "corpusStats" (strv l) ++ [("metadata", VConv CFile m)]) accepts (analyze ["-l"; l; "corpusstats"; m]).
  Proof.
    intros P Pm A. split; [reflexivity|]. pose proof (fits_layout analyze_program l ltac:(right; left; reflexivity) P) as F.
    destruct (corpus_line accepts [Given "-l" l] m F Pm) as [K _]. destruct K as [ns [E [V [Vf Vm]]]].
    { split; [|exact A]. constructor; [|constructor]. intros a [<-|[<-|[<-|[<-|[]]]]] Ho; cbn in Ho; (repeat destruct Ho as [Ho|Ho]; try discriminate Ho; try now elim Ho).
      constructor; [|constructor]. split; [now left|exact I]. }
    exists ns. split; [exact E|]. intros k v [H|[H|[H|[H|[]]]]]; injection H as <- <-.
    - exact Vf.
    - exact (V layout_opt VNone ltac:(right; left; reflexivity) ltac:(intros Q; discriminate Q) eq_refl).
    - exact (V keyboard_opt (strv "ibmpc105") ltac:(right; right; left; reflexivity) ltac:(intros Q; discriminate Q) eq_refl).
    - exact Vm.
  Qed.
  Lemma report_told c cs l ls : Forall plain (c :: cs) -> Forall plain (l :: ls) ->
    told report_program [("corpus", VList (map strv (c :: cs))); ("layoutstats", VList (map strv (l :: ls)))] accepts (report_program, ["-c"] ++ (c :: cs) ++ ["-l"] ++ (l :: ls)).
  Proof.
    intros Pc Pl. split; [reflexivity|].
    set (a := mkAction ["-c"; "--corpus"] "corpus" NPlus Store CStr None (Some VNone) false "Corpus metadata files").
    set (b := mkAction ["-l"; "--layoutstats"] "layoutstats" NPlus Store CStr None (Some VNone) false "Layout statistics files").
    destruct (options_line accepts report_program [Many "-c" c cs; Many "-l" l ls] ltac:(do 2 right; left; reflexivity) eq_refl) as [K _].
    { constructor; [|constructor; [|constructor]].
      - exists a. split; [right; left; reflexivity|]. split; [left; reflexivity|]. repeat split; auto.
      - exists b. split; [right; right; left; reflexivity|]. split; [left; reflexivity|]. repeat split; auto. }
    destruct K as [ns [E V]].
    { assert (forall (d : action) i, a_conv d = CStr -> a_choices d = None -> Forall (allowed accepts d) (given_strings i)) as Q.
      { intros d i K1 K2. apply Forall_forall. intros z _. split; [now left|]. now rewrite K2. }
      constructor; [|constructor; [|constructor]]; intros d [<-|[<-|[<-|[]]]] _; apply Q; reflexivity. }
    exists ns. split.
    - rewrite <- E. cbn [flat_map words]. rewrite app_nil_r. reflexivity.
    - intros k v [H|[H|[]]]; injection H as <- <-.
      + exact (V a VNone ltac:(right; left; reflexivity) ltac:(intros Q; discriminate Q) eq_refl).
      + exact (V b VNone ltac:(right; right; left; reflexivity) ltac:(intros Q; discriminate Q) eq_refl).
  Qed.

  Variables corpora winkbd : list string.
  Variable fd : found.
  Hypothesis Hacc : readable_files corpora accepts.
  Definition does (s : stmt) (w : list (program * facts)) : Prop := Forall2 (fun pf r => told (fst pf) (snd pf) accepts r) w (runs s).
  Ltac one := constructor; [|constructor].
  Definition svg_parser : parser := snd (command "svg" "renderSvg" [
     opt ["-s"; "--style"] "style" CFile (VConst "data/render-svg.css") "Include external stylesheet into SVG";
     opt ["--heatmap"] "heatmap" CYaml VNone "Highlight keys based on heatmap data"]).
  Lemma svg_told l o items style heat : plain l -> plain o -> Forall (fits svg_parser) items -> Forall (good accepts svg_parser) items ->
    (forall a, In a (p_actions svg_parser) -> forall d, a_default a = Some d -> (a_dest a = "style" -> expected a d items = style) /\ (a_dest a = "heatmap" -> expected a d items = heat)) ->
    told render_program (svg l o style heat) accepts (render [l] ("svg" :: flat_map words items) [o]).
  Proof.
    intros P Po F G X. apply (render_layout "svg" svg_parser "renderSvg" items l o [("style", style); ("heatmap", heat)]); auto.
    - left; reflexivity.
    - intros k v [H|[H|[]]]; injection H as <- <-.
      + exists (opt ["-s"; "--style"] "style" CFile (VConst "data/render-svg.css") "Include external stylesheet into SVG"), (VConst "data/render-svg.css").
        split; [right; left; reflexivity|]. split; [intros Q; discriminate Q|]. split; [reflexivity|]. split; [reflexivity|]. apply X; [right; left; reflexivity|reflexivity|reflexivity].
      + exists (opt ["--heatmap"] "heatmap" CYaml VNone "Highlight keys based on heatmap data"), VNone.
        split; [right; right; left; reflexivity|]. split; [intros Q; discriminate Q|]. split; [reflexivity|]. split; [reflexivity|]. apply X; [right; right; left; reflexivity|reflexivity|reflexivity].
  Qed.
  Lemma simple_told cmd f l o : In (cmd, mkParser [help_action] (func f)) (pr_subs render_program) -> plain l -> plain o ->
    told render_program (calls f (strv l) ++ [("output", strv o)]) accepts (render [l] [cmd] [o]).
  Proof.
    intros S P Po. apply (render_layout cmd (mkParser [help_action] (func f)) f [] l o []); auto. intros k v [].
  Qed.
  Lemma does_svg l : In l gen_layouts -> does (with_layout l (after (reportdir "") (reportdir ("/" ++ l ++ ".svg")) "render-svg" [])) [(render_program, svg l ("_build/report/" ++ l ++ ".svg") own_style VNone)].
  Proof.
    intros H. one. apply (svg_told l ("_build/report/" ++ l ++ ".svg") []); [now apply layout_plain|reflexivity|constructor|constructor|].
    intros a [<-|[<-|[<-|[]]]] d D; try discriminate D; injection D as <-; split; intros K; try discriminate K; reflexivity.
  Qed.
  Lemma does_heat l : In l gen_layouts -> does (with_layout l (after (reportdir "") (reportdir ("/" ++ l ++ "-heat.svg")) "render-svg-heat" [tempdir ("/" ++ l ++ "-heat.yaml")]))
    [(render_program, svg l ("_build/report/" ++ l ++ "-heat.svg") own_style (VConv CYaml ("_build/_temp/" ++ l ++ "-heat.yaml")))].
  Proof.
    intros H. one. apply (svg_told l ("_build/report/" ++ l ++ "-heat.svg") [Joined "--heatmap" ("_build/_temp/" ++ l ++ "-heat.yaml")]); [now apply layout_plain|reflexivity| | |].
    - one. exists (opt ["--heatmap"] "heatmap" CYaml VNone "Highlight keys based on heatmap data"). split; [right; right; left; reflexivity|].
      split; [left; reflexivity|]. split; [reflexivity|now left].
    - one. intros a [<-|[<-|[<-|[]]]] Ho; cbn in Ho; (repeat destruct Ho as [Ho|Ho]; try discriminate Ho; try now elim Ho).
      one. split; [|exact I]. right. now apply Hacc.
    - intros a [<-|[<-|[<-|[]]]] d D; try discriminate D; injection D as <-; split; intros K; try discriminate K; reflexivity.
  Qed.
  Lemma does_print l : In l gen_layouts -> does (with_layout l (after (tempdir "") (tempdir ("/" ++ l ++ "-print.svg")) "render-svg-print" []))
    [(render_program, svg l ("_build/_temp/" ++ l ++ "-print.svg") (VConv CFile "lulua/data/render-svg-print.css") VNone)].
  Proof.
    intros H. one. apply (svg_told l ("_build/_temp/" ++ l ++ "-print.svg") [Given "-s" "lulua/data/render-svg-print.css"]); [now apply layout_plain|reflexivity| | |].
    - one. exists (opt ["-s"; "--style"] "style" CFile (VConst "data/render-svg.css") "Include external stylesheet into SVG"). split; [right; left; reflexivity|].
      split; [left; reflexivity|]. split; [reflexivity|]. split; [now left|reflexivity].
    - one. intros a [<-|[<-|[<-|[]]]] Ho; cbn in Ho; (repeat destruct Ho as [Ho|Ho]; try discriminate Ho; try now elim Ho).
      one. split; [|exact I]. right. apply Hacc.
    - intros a [<-|[<-|[<-|[]]]] d D; try discriminate D; injection D as <-; split; intros K; try discriminate K; reflexivity.
  Qed.
  Lemma does_write l c f : In l gen_layouts -> In (c, f) formats -> exists r i, In (c, (r, i)) (corpus_rules fd) /\ does (write_stmt l (c, (r, i))) [(write_program, written l f); combined].
  Proof.
    intros H K. assert (forall r i, dget commands r = Some (write_run f) -> f <> [] -> Forall plain f -> incl f filterAvail -> does (write_stmt l (c, (r, i))) [(write_program, written l f); combined]) as D.
    { intros r i E N P I. unfold does, runs. cbn [rule write_stmt fst snd]. rewrite E. cbn [write_run]. constructor; [|one; exact combine_told].
      apply write_told; auto. now apply layout_plain. }
    assert (forall f, forallb (fun x => negb (starts_dash x) && mem x filterAvail) f = true -> Forall plain f /\ incl f filterAvail) as Q.
    { intros g G. split.
      - apply Forall_forall. intros x Hx. pose proof (proj1 (forallb_forall _ _) G x Hx) as Z. apply andb_prop in Z. unfold plain. destruct (starts_dash x); [destruct Z as [Z _]; discriminate Z|reflexivity].
      - intros x Hx. pose proof (proj1 (forallb_forall _ _) G x Hx) as Z. apply andb_prop in Z. now apply mem_In. }
    cbn [formats In] in K.
    repeat (destruct K as [K|K]; [injection K as <- <-; eexists; eexists; split; [unfold corpus_rules; repeat (first [left; reflexivity|right])|apply D; [reflexivity|intros Z; discriminate Z|apply Q; reflexivity|apply Q; reflexivity]]|]).
    destruct K.
  Qed.
  Ltac sub_in := repeat (first [left; reflexivity|right]).
  Definition done_by (s : stmt) (o : string) (w : list (program * facts)) : Prop := outs s = [o] /\ made corpora o w /\ does s w.
  Lemma done_layout l s : In l gen_layouts -> In s (layout_stmts fd l) -> runs s = [] \/ exists o w, done_by s o w.
  Proof.
    intros H S. pose proof (layout_plain l H) as P. unfold layout_stmts in S. destruct S as [<-|S]; [left; reflexivity|]. apply in_app_iff in S. destruct S as [S|S].
    - right. apply in_map_iff in S. destruct S as [[c [r i]] [<- K]].
      assert (exists f, In (c, f) formats) as [f Hf].
      { cbn [corpus_rules In] in K. repeat (destruct K as [K|K]; [injection K as <- <- <-; eexists; unfold formats; sub_in|]). destruct K. }
      destruct (does_write l c f H Hf) as [r' [i' [K' D]]].
      assert ((r', i') = (r, i)) as Q.
      { pose proof (dget_first (corpus_rules fd) c (r, i)) as Q1. pose proof (dget_first (corpus_rules fd) c (r', i')) as Q2.
        assert (NoDup (map fst (corpus_rules fd))) as N by (apply nodupb_NoDup; vm_compute; reflexivity).
        specialize (Q1 N K). specialize (Q2 N K'). congruence. }
      injection Q as -> ->. exists ("_build/_stats/" ++ l ++ "/" ++ c ++ ".pickle")%string, [(write_program, written l f); combined].
      split; [reflexivity|]. split; [now constructor|exact D].
    - cbn [In] in S. destruct S as [<-|[<-|[<-|[<-|[<-|[<-|[<-|[<-|[]]]]]]]]]; try (left; reflexivity); right; eexists; eexists; (split; [reflexivity|]).
      + split; [apply (made_all corpora l H)|]. one. exact combine_told.
      + split; [apply (made_svg corpora l H)|]. now apply does_svg.
      + split; [apply (made_heatmap corpora l H)|]. one. apply (analyze_layout "keyheatmap" "keyHeatmap"); [sub_in|exact P].
      + split; [apply (made_effort corpora l H)|]. one. apply (analyze_layout "triadeffortdata" "triadEffortData"); [sub_in|exact P].
      + split; [apply (made_heat corpora l H)|]. now apply does_heat.
      + split; [apply (made_print corpora l H)|]. now apply does_print.
      + split; [apply (made_layoutstats corpora l H)|]. one. apply (analyze_layout "layoutstats" "layoutstats"); [sub_in|exact P].
  Qed.
  Lemma done_corpus c : In c corpora -> exists o w, done_by (corpus_stmt c) o w.
  Proof.
    intros H. eexists; eexists. split; [reflexivity|]. split; [exact (made_corpus corpora c H)|]. one.
    apply (corpus_told "ar-lulua" ("corpus/" ++ c ++ "/metadata.yaml")); [reflexivity|reflexivity|]. now apply Hacc.
  Qed.
  Lemma does_report : corpora <> [] -> does (nth 2 (report_stmts corpora) (mkdir "" []))
    [(report_program, [("corpus", VList (map (fun c => strv ("_build/_temp/metadata-" ++ c ++ ".yaml")) corpora));
                       ("layoutstats", VList (map (fun l => strv ("_build/_temp/" ++ l ++ "-layoutstats.pickle")) gen_layouts))])].
  Proof.
    intros N. one. cbn [fst snd]. rewrite <- (map_map (fun c => ("_build/_temp/metadata-" ++ c ++ ".yaml")%string) strv), <- (map_map (fun l => ("_build/_temp/" ++ l ++ "-layoutstats.pickle")%string) strv).
    change (map (fun l => ("_build/_temp/" ++ l ++ "-layoutstats.pickle")%string) gen_layouts) with layoutstatsfiles.
    change (map (fun c => ("_build/_temp/metadata-" ++ c ++ ".yaml")%string) corpora) with (map metafile corpora).
    change (var (nth 2 (report_stmts corpora) (mkdir "" [])) "corpus") with (map metafile corpora).
    change (var (nth 2 (report_stmts corpora) (mkdir "" [])) "layoutstats") with layoutstatsfiles.
    assert (Forall plain layoutstatsfiles) as Pl.
    { apply Forall_forall. intros x Hx. apply in_map_iff in Hx. destruct Hx as [y [<- _]]. reflexivity. }
    assert (Forall plain (map metafile corpora)) as Pc.
    { apply Forall_forall. intros x Hx. apply in_map_iff in Hx. destruct Hx as [y [<- _]]. reflexivity. }
    clear Hacc. destruct corpora as [|c cs]; [now elim N|].
    assert (layoutstatsfiles = hd "" layoutstatsfiles :: tl layoutstatsfiles) as Q by reflexivity. rewrite Q in *.
    apply (report_told (metafile c) (map metafile cs)); assumption.
  Qed.
  Lemma gen_stmt s : corpora <> [] -> In s (gen_sh corpora winkbd fd) -> runs s = [] \/ exists o w, done_by s o w.
  Proof.
    intros N S. unfold gen_sh in S. rewrite !in_app_iff in S. destruct S as [S|[S|[S|[S|[S|[S|S]]]]]].
    - cbn [fixed_stmts In] in S. repeat (destruct S as [S|S]; [subst s; try (left; reflexivity); right; eexists; eexists; (split; [reflexivity|])|]); [..|destruct S].
      + split; [apply made_letters|]. one. apply (analyze_layout "letterfreq" "letterfreq"); [sub_in|reflexivity].
      + split; [apply made_words|]. one. apply (analyze_layout "latinime" "latinImeDict"); [sub_in|reflexivity].
      + split; [apply made_klavaro|]. one. apply (simple_told "klavaro"); [sub_in|reflexivity|reflexivity].
    - apply in_map_iff in S. destruct S as [f [<- _]]. left; reflexivity.
    - unfold driver_stmts in S. rewrite !in_app_iff in S. destruct S as [S|[S|S]].
      + destruct S as [<-|[<-|[<-|[]]]]; try (left; reflexivity). right; eexists; eexists. split; [reflexivity|]. split; [apply made_winkbd|]. one.
        apply (simple_told "winkbd"); [sub_in|reflexivity|reflexivity].
      + apply in_map_iff in S. destruct S as [f [<- _]]. left; reflexivity.
      + destruct S as [<-|[]]. left; reflexivity.
    - apply in_flat_map in S. destruct S as [l [H S]]. now apply (done_layout l).
    - destruct S as [<-|[]]. right; eexists; eexists. split; [reflexivity|]. split; [apply made_xmodmap|]. one. apply (simple_told "xmodmap"); [sub_in|reflexivity|reflexivity].
    - apply in_map_iff in S. destruct S as [c [<- H]]. right. now apply done_corpus.
    - destruct S as [<-|[<-|[<-|[]]]]; try (left; reflexivity); right; eexists; eexists; (split; [reflexivity|]).
      + split; [apply made_plot|]. one. apply (analyze_layout "triadeffortplot" "triadEffortPlot"); [sub_in|reflexivity].
      + split; [apply made_report|]. now apply does_report.
  Qed.
  Ltac at_app := unfold gen_sh; rewrite !in_app_iff.
  Lemma in_layout l s : In l gen_layouts -> In s (layout_stmts fd l) -> In s (gen_sh corpora winkbd fd).
  Proof. intros H S. at_app. do 3 right. left. apply in_flat_map. eauto. Qed.
  Lemma in_fixed s : In s fixed_stmts -> In s (gen_sh corpora winkbd fd).
  Proof. intros H. at_app. now left. Qed.
  Lemma made_stmt o w : corpora <> [] -> made corpora o w -> exists s, In s (gen_sh corpora winkbd fd) /\ outs s = [o] /\ does s w.
  Proof.
    intros N M. assert (forall l n, In l gen_layouts -> (n < 8)%nat -> In (nth n (skipn 9 (layout_stmts fd l)) (mkdir "" [])) (gen_sh corpora winkbd fd)) as L.
    { intros l n H Hn. apply (in_layout l); [exact H|]. rewrite <- (firstn_skipn 9 (layout_stmts fd l)) at 2. apply in_or_app. right. apply nth_In. exact Hn. }
    destruct M.
    - destruct (does_write l c f H H0) as [r [i [K D]]]. exists (write_stmt l (c, (r, i))). split; [|split; [reflexivity|exact D]].
      apply (in_layout l); [exact H|]. right. apply in_or_app. left. now apply in_map.
    - eexists. split; [apply (L l 0%nat H); lia|]. split; [reflexivity|]. one. exact combine_told.
    - eexists. split; [apply (L l 1%nat H); lia|]. split; [reflexivity|]. now apply does_svg.
    - eexists. split; [apply (L l 2%nat H); lia|]. split; [reflexivity|]. one. apply (analyze_layout "keyheatmap" "keyHeatmap"); [sub_in|now apply layout_plain].
    - eexists. split; [apply (L l 4%nat H); lia|]. split; [reflexivity|]. now apply does_heat.
    - eexists. split; [apply (L l 5%nat H); lia|]. split; [reflexivity|]. now apply does_print.
    - eexists. split; [apply (L l 3%nat H); lia|]. split; [reflexivity|]. one. apply (analyze_layout "triadeffortdata" "triadEffortData"); [sub_in|now apply layout_plain].
    - eexists. split; [apply (L l 7%nat H); lia|]. split; [reflexivity|]. one. apply (analyze_layout "layoutstats" "layoutstats"); [sub_in|now apply layout_plain].
    - exists (xmodmap_stmt "ar-lulua"). split; [at_app; do 4 right; left; now left|]. split; [reflexivity|]. one. apply (simple_told "xmodmap"); [sub_in|reflexivity|reflexivity].
    - exists (nth 11 fixed_stmts (mkdir "" [])). split; [apply in_fixed, nth_In; cbn; lia|]. split; [reflexivity|]. one. apply (simple_told "klavaro"); [sub_in|reflexivity|reflexivity].
    - exists (nth 0 (driver_stmts winkbd) (mkdir "" [])). split; [at_app; do 2 right; left; now left|]. split; [reflexivity|]. one. apply (simple_told "winkbd"); [sub_in|reflexivity|reflexivity].
    - exists (nth 3 fixed_stmts (mkdir "" [])). split; [apply in_fixed, nth_In; cbn; lia|]. split; [reflexivity|]. one. apply (analyze_layout "letterfreq" "letterfreq"); [sub_in|reflexivity].
    - exists (nth 6 fixed_stmts (mkdir "" [])). split; [apply in_fixed, nth_In; cbn; lia|]. split; [reflexivity|]. one. apply (analyze_layout "latinime" "latinImeDict"); [sub_in|reflexivity].
    - exists (nth 0 (report_stmts corpora) (mkdir "" [])). split; [at_app; do 6 right; now left|]. split; [reflexivity|]. one. apply (analyze_layout "triadeffortplot" "triadEffortPlot"); [sub_in|reflexivity].
    - exists (corpus_stmt c). split; [at_app; do 5 right; left; now apply in_map|]. split; [reflexivity|]. one.
      apply (corpus_told "ar-lulua" ("corpus/" ++ c ++ "/metadata.yaml")); [reflexivity|reflexivity|]. now apply Hacc.
    - exists (nth 2 (report_stmts corpora) (mkdir "" [])). split; [at_app; do 6 right; right; right; now left|]. split; [reflexivity|]. now apply does_report.
  Qed.
End Gen.
