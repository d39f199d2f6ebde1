(** C96, C97: the command lines of the programs. *)
From Coq Require Import Ascii.
From Verif Require Import Base CurveModel BuildModel ArgModel ArgSpec ArgProofs ArgAccept ArgSound ArgPrograms ArgGen.
Open Scope string_scope.
Open Scope list_scope.
Unset Implicit Arguments.

(** * C96 *)
(** Programs with options only: options in any order, the last one counts, mutations are
    collected, and a value that is not allowed is refused. *)
Theorem C96_options accepts pr items : In pr [report_program; optimize_program] -> Forall (fits (pr_main pr)) items ->
  (Forall (good accepts (pr_main pr)) items -> exists ns, parse_args accepts pr (flat_map words items) = Done ns /\ option_values (pr_main pr) items ns) /\
  (~ Forall (good accepts (pr_main pr)) items -> parse_args accepts pr (flat_map words items) = Exit Usage).
Proof.
  intros H. apply options_line; destruct H as [<-|[<-|[]]]; try reflexivity; [do 2 right; left; reflexivity|do 4 right; left; reflexivity].
Qed.
(** lulua-analyze: options of the program before the command, those of the command after it *)
Theorem C96_analyze accepts pre cmd sp items :
  Forall (fits (pr_main analyze_program)) pre -> In (cmd, sp) (pr_subs analyze_program) -> cmd <> "corpusstats" -> Forall (fits sp) items ->
  let r := parse_args accepts analyze_program (flat_map words pre ++ cmd :: flat_map words items) in
  let ok := Forall (good accepts (pr_main analyze_program)) pre /\ Forall (good accepts sp) items in
  (ok -> exists ns, r = Done ns /\ option_values (pr_main analyze_program) pre ns /\ option_values sp items ns /\ dget ns "func" = dget (p_defaults sp) "func") /\
  (~ ok -> r = Exit Usage).
Proof.
  intros F S N Fi. apply analyze_line; auto.
  cbn [pr_subs analyze_program In command] in S. repeat (destruct S as [S|S]; [injection S; intros <- <-; try reflexivity|]); [now elim N|destruct S].
Qed.
Theorem C96_corpusstats accepts pre m : Forall (fits (pr_main analyze_program)) pre -> plain m ->
  let r := parse_args accepts analyze_program (flat_map words pre ++ ["corpusstats"; m]) in
  let ok := Forall (good accepts (pr_main analyze_program)) pre /\ accepts CFile m = true in
  (ok -> exists ns, r = Done ns /\ option_values (pr_main analyze_program) pre ns /\
    dget ns "func" = Some (VConst "corpusStats") /\ dget ns "metadata" = Some (VConv CFile m)) /\
  (~ ok -> r = Exit Usage).
Proof. apply corpus_line. Qed.
(** lulua-render: the output file comes last. *)
Theorem C96_render accepts pre cmd sp items o :
  Forall (fits (pr_main render_program)) pre -> In (cmd, sp) (pr_subs render_program) -> Forall (fits sp) items -> plain o ->
  let r := parse_args accepts render_program (flat_map words pre ++ cmd :: flat_map words items ++ [o]) in
  let ok := Forall (good accepts (pr_main render_program)) pre /\ Forall (good accepts sp) items in
  (ok -> exists ns, r = Done ns /\ option_values (pr_main render_program) pre ns /\ option_values sp items ns /\
    dget ns "func" = dget (p_defaults sp) "func" /\ dget ns "output" = Some (strv o)) /\
  (~ ok -> r = Exit Usage).
Proof.
  intros F S Fi P. cbv zeta. destruct (render_line accepts pre cmd sp items o F S Fi P) as [A B]. split; [|exact B].
  intros K. destruct (A K) as [ns [E [[V1 [V2 V3]] V4]]]. exists ns. auto.
Qed.
(** The functions of the commands *)
Theorem C96_functions :
  map (fun s => (fst s, dget (p_defaults (snd s)) "func")) (pr_subs analyze_program) =
    map (fun x => (fst x, Some (VConst (snd x)))) [("pretty", "pretty"); ("combine", "combine"); ("letterfreq", "letterfreq"); ("triadfreq", "triadfreq");
      ("triadeffortdata", "triadEffortData"); ("triadeffortplot", "triadEffortPlot"); ("keyheatmap", "keyHeatmap"); ("layoutstats", "layoutstats");
      ("latinime", "latinImeDict"); ("corpusstats", "corpusStats")] /\
  map (fun s => (fst s, dget (p_defaults (snd s)) "func")) (pr_subs render_program) =
    map (fun x => (fst x, Some (VConst (snd x)))) [("svg", "renderSvg"); ("xmodmap", "renderXmodmap"); ("keyman", "renderKeyman"); ("ask", "renderAsk");
      ("winkbd", "renderWinKbd"); ("keylayout", "renderKeylayout"); ("klavaro", "renderKlavaro")].
Proof. split; reflexivity. Qed.
(** lulua-write: options anywhere but between filters *)
Theorem C96_write accepts pre l mid filters post :
  Forall (fits (pr_main write_program)) (pre ++ mid ++ post) -> plain l -> filters <> [] -> Forall plain filters ->
  let r := parse_args accepts write_program (flat_map words pre ++ l :: flat_map words mid ++ filters ++ flat_map words post) in
  let ok := Forall (good accepts (pr_main write_program)) (pre ++ mid ++ post) /\ incl filters filterAvail in
  (ok -> exists ns, r = Done ns /\ option_values (pr_main write_program) (pre ++ mid ++ post) ns /\
    dget ns "layout" = Some (strv l) /\ dget ns "filter" = Some (VList (map strv filters))) /\
  (~ ok -> r = Exit Usage).
Proof. apply write_line. Qed.
(** lulua-extract-mediawiki *)
Theorem C96_extract accepts f : plain f -> parse_args accepts extract_program [f] = Done [("file", strv f)].
Proof.
  intros P. unfold parse_args. rewrite (one_positional accepts (pr_main extract_program) _ (pos "file" "bzip2-compressed dump") f) by (auto; reflexivity). reflexivity.
Qed.
(** lulua-import *)
Theorem C96_import accepts f fmt : plain f -> plain fmt ->
  parse_args accepts import_program [f; fmt] = if String.eqb fmt "klc" then Done [("input", strv f); ("func", VConst "importKlc")] else Exit Usage.
Proof.
  intros P Pf. unfold parse_args, parse_known.
  assert (tags (pr_main import_program) [f; fmt] = Done [(f, TArg); (fmt, TArg)]) as ->
    by exact (tags_plain (pr_main import_program) [f; fmt] [] ltac:(constructor; [exact P|constructor; [exact Pf|constructor]])).
  cbn [obind List.length]. cbn [parse_loop existsb snd is_opt orb negb]. unfold consume_positionals.
  change (positionals (pr_main import_program)) with [pos "input" "Input file"; sub_action]. cbn [map List.length snd a_nargs pos sub_action].
  change (match_partial 2 [N1; NParser] [TArg; TArg]) with [1%nat; 1%nat]. cbn [take_pos firstn skipn map fst].
  rewrite take_plain by (auto; reflexivity). change (allowedb accepts _ f) with true. cbn [obind].
  unfold take at 1. cbn [a_kind sub_action]. unfold subs_of. cbn [pr_subs import_program command dget].
  destruct (eqb_spec fmt "klc") as [->|N]; [reflexivity|].
  destruct (String.eqb_spec fmt "klc") as [K|_]; [now elim N|reflexivity].
Qed.

(** The commands of the build *)
Theorem C96_build accepts corpora winkbd fd : readable_files corpora accepts -> corpora <> [] ->
  (forall s, In s (gen_sh corpora winkbd fd) -> runs s = [] \/
    exists o w, outs s = [o] /\ made corpora o w /\ Forall2 (fun pf r => told (fst pf) (snd pf) accepts r) w (runs s)) /\
  (forall o w, made corpora o w -> exists s, In s (gen_sh corpora winkbd fd) /\ outs s = [o] /\ Forall2 (fun pf r => told (fst pf) (snd pf) accepts r) w (runs s)).
Proof.
  intros A N. split.
  - intros s S. exact (gen_stmt accepts corpora winkbd fd A s N S).
  - intros o w. exact (made_stmt accepts corpora winkbd fd A o w N).
Qed.
Definition everything : conv -> string -> bool := fun _ _ => true.
(** Without a corpus the report cannot be made. *)
Theorem C96_build_needs_corpora : forall accepts s, In s (report_stmts []) -> rule s = "report" ->
  exists args, runs s = [(report_program, args)] /\ parse_args accepts report_program args = Exit Usage.
Proof.
  intros accepts s [<-|[<-|[<-|[]]]] R; try discriminate R. eexists. split; [reflexivity|]. vm_compute. reflexivity.
Qed.

(** The command lines of the README and others *)
Example C96_ex_render : exists ns, parse_args everything render_program ["-l"; "ar-lulua"; "svg"; "--style=my.css"; "-s"; "print.css"; "out.svg"] = Done ns /\
  dget ns "layout" = Some (strv "ar-lulua") /\ dget ns "style" = Some (VConv CFile "print.css") /\ dget ns "output" = Some (strv "out.svg") /\ dget ns "func" = Some (VConst "renderSvg").
Proof. eexists. split; [vm_compute; reflexivity|]. repeat split. Qed.
Example C96_ex_optimize : exists ns, parse_args everything optimize_program ["-r"; "--pin=0;3"; "-s"; "a"; "-n"; "10"; "-s"; "b"; "--steps=20"] = Done ns /\
  dget ns "steps" = Some (VConv CInt "20") /\ dget ns "randomize" = Some (VBool true) /\ dget ns "mutate" = Some (VList [VConv CMutation "a"; VConv CMutation "b"]) /\
  dget ns "model" = Some (strv "mod01").
Proof. eexists. split; [vm_compute; reflexivity|]. repeat split. Qed.
Example C96_ex_optimize_fits : Forall (fits (pr_main optimize_program)) [Flag "-r"; Joined "--pin" "0;3"; Given "-s" "a"; Given "-n" "10"; Given "-s" "b"; Joined "--steps" "20"].
Proof.
  repeat constructor.
  - eexists. split; [do 5 right; left; reflexivity|]. split; [left; reflexivity|]. split; reflexivity.
  - eexists. split; [do 6 right; left; reflexivity|]. split; [right; left; reflexivity|]. split; [reflexivity|now left].
  - eexists. split; [do 8 right; left; reflexivity|]. split; [left; reflexivity|]. repeat split; now right.
  - eexists. split; [do 4 right; left; reflexivity|]. split; [left; reflexivity|]. repeat split; now left.
  - eexists. split; [do 8 right; left; reflexivity|]. split; [left; reflexivity|]. repeat split; now right.
  - eexists. split; [do 4 right; left; reflexivity|]. split; [right; left; reflexivity|]. split; [reflexivity|now left].
Qed.
Example C96_ex_bad_model : parse_args everything optimize_program ["-m"; "mod02"] = Exit Usage.
Proof. vm_compute. reflexivity. Qed.
Example C96_ex_write : exists ns, parse_args everything write_program ["-j"; "4"; "ar-lulua"; "-v"; "file"; "text"; "--benchmark"] = Done ns /\
  dget ns "filter" = Some (VList [strv "file"; strv "text"]) /\ dget ns "jobs" = Some (VConv CInt "4") /\ dget ns "verbose" = Some (VBool true).
Proof. eexists. split; [vm_compute; reflexivity|]. repeat split. Qed.
Example C96_ex_build : readable_files all_corpora everything /\ (List.length (flat_map runs (gen_sh all_corpora [] (mkFound [] [] [] [] []))) = 291)%nat.
Proof. split; [repeat split|vm_compute; reflexivity]. Qed.

(** * C97: any command line *)
Theorem C97_ends accepts pr args : In pr programs -> parse_args accepts pr args <> Fuel.
Proof. intros H. apply args_end, program_wf, H. Qed.
(** Values are given by the command line or are defaults, and the function belongs to a command given. *)
Theorem C97_values accepts pr args ns : In pr programs -> parse_args accepts pr args = Done ns ->
  has_values accepts args (pr_main pr) ns /\
  (dget ns "func" = None \/
   exists cmd sp, In cmd args /\ In (cmd, sp) (pr_subs pr) /\ has_values accepts args sp ns /\ dget ns "func" = dget (p_defaults sp) "func").
Proof.
  intros H E. destruct (args_sound accepts pr (program_wf pr H) args ns E) as [V K]. split; [exact V|].
  assert (p_defaults (pr_main pr) = [] /\ ~ In "func" (map a_dest (p_actions (pr_main pr)))) as [D M].
  { cbn [programs In] in H. repeat (destruct H as [<-|H]; [split; [reflexivity|cbn; intuition discriminate]|]). destruct H. }
  destruct K as [[K _]|[cmd [sp [I [S [V2 K]]]]]].
  - left. rewrite (K _ M), D. reflexivity.
  - right. exists cmd, sp. split; [exact I|]. apply dget_In in S. split; [exact S|]. split; [exact V2|].
    pose proof (no_func _ _ _ H S) as F. apply mem_nIn in F. rewrite map_app, in_app_iff in F. rewrite K by tauto. rewrite D. now destruct (dget (p_defaults sp) "func").
Qed.
(** lulua-render always has something to do and a file to write to. *)
Theorem C97_render accepts args ns : parse_args accepts render_program args = Done ns ->
  (exists cmd sp, In cmd args /\ In (cmd, sp) (pr_subs render_program) /\ dget ns "func" = dget (p_defaults sp) "func" /\ dget ns "func" <> None) /\
  ((count "--" args <= 1)%Z -> exists o, dget ns "output" = Some (strv o) /\ from_args args o).
Proof.
  intros E. pose proof (args_sound accepts render_program (program_wf _ render_in) args ns E) as [V K]. split.
  - destruct K as [[_ K]|[cmd [sp [I [S [V2 K]]]]]].
    + specialize (K sub_action [] (pos "output" "Output file") [pos "output" "Output file"] eq_refl eq_refl ltac:(now left)). discriminate K.
    + apply dget_In in S. exists cmd, sp. split; [exact I|]. split; [exact S|].
      pose proof (no_func _ _ _ render_in S) as F. apply mem_nIn in F. rewrite map_app, in_app_iff in F. rewrite K by tauto.
      assert (dget (p_defaults sp) "func" <> None) as Q.
      { cbn [pr_subs render_program In command] in S. repeat (destruct S as [S|S]; [injection S as <- <-; cbn; intros Q; discriminate Q|]). destruct S. }
      destruct (dget (p_defaults sp) "func") as [v|]; [|now elim Q]. split; [reflexivity|intros Q'; discriminate Q'].
  - intros C. destruct (V (pos "output" "Output file") ltac:(do 4 right; left; reflexivity) ltac:(left; reflexivity)) as [v [Ev [[G|[_ [_ L]]]|[G _]]]]; [|lia|discriminate G].
    destruct G as [s [-> [_ G]]]. exists s. split; [exact Ev|exact G].
Qed.
(** lulua-write has a layout and filters it knows. *)
Theorem C97_write accepts args ns : parse_args accepts write_program args = Done ns -> (count "--" args <= 1)%Z ->
  (exists l, dget ns "layout" = Some (strv l) /\ from_args args l) /\
  (exists f fs, dget ns "filter" = Some (VList (map strv (f :: fs))) /\ incl (f :: fs) filterAvail /\ Forall (from_args args) (f :: fs)).
Proof.
  intros E C. pose proof (args_sound accepts write_program (program_wf _ write_in) args ns E) as [V _]. split.
  - destruct (V (pos "layout" "Keyboard layout name") ltac:(do 5 right; left; reflexivity) ltac:(left; reflexivity)) as [v [Ev [[G|[_ [_ L]]]|[G _]]]]; [|lia|discriminate G].
    destruct G as [s [-> [_ G]]]. exists s. split; [exact Ev|exact G].
  - destruct (V (mkAction [] "filter" NPlus Store CStr (Some filterAvail) (Some VNone) true "Data filter") ltac:(do 6 right; left; reflexivity) ltac:(left; reflexivity)) as [v [Ev [[G|[_ [_ L]]]|[G _]]]]; [|lia|discriminate G].
    destruct G as [s [l [-> G]]]. exists s, l. split; [exact Ev|]. split.
    + intros x Hx. rewrite Forall_forall in G. exact (proj2 (proj1 (G x Hx))).
    + eapply Forall_impl; [|exact G]. cbv beta. tauto.
Qed.
(** lulua-optimize uses a known model. *)
Theorem C97_optimize accepts args ns : parse_args accepts optimize_program args = Done ns ->
  (exists m, dget ns "model" = Some (strv m) /\ In m model_names) /\
  (exists b, dget ns "randomize" = Some (VBool b)) /\
  (exists l, dget ns "mutate" = Some (VList (map (VConv CMutation) l)) /\ Forall (fun s => accepts CMutation s = true) l) /\
  (dget ns "pin" = Some (VList []) \/ exists s, dget ns "pin" = Some (VConv CPin s) /\ accepts CPin s = true).
Proof.
  intros E. pose proof (args_sound accepts optimize_program (program_wf _ ltac:(do 4 right; left; reflexivity)) args ns E) as [V _]. repeat split.
  - destruct (V (mkAction ["-m"; "--model"] "model" N1 Store CStr (Some model_names) (Some (strv "mod01")) false "Carpalx model") ltac:(do 7 right; left; reflexivity) ltac:(left; reflexivity)) as [v [Ev [[G|[G _]]|[_ G]]]]; [|discriminate G|].
    + destruct G as [s [-> [[_ G] _]]]. exists s. auto.
    + injection G as <-. exists "mod01". split; [exact Ev|now left].
  - destruct (V (flag ["-r"; "--randomize"] "randomize" "Randomize layout before optimizing") ltac:(do 5 right; left; reflexivity) ltac:(right; left; reflexivity)) as [v [Ev [[G|[G _]]|[_ G]]]]; [|discriminate G|].
    + cbn in G. subst v. eauto.
    + injection G as <-. eauto.
  - destruct (V (mkAction ["-s"; "--mutate"] "mutate" N1 Append CMutation None (Some (VList [])) false "Apply these mutations") ltac:(do 8 right; left; reflexivity) ltac:(right; right; reflexivity)) as [v [Ev [[G|[G _]]|[_ G]]]]; [|discriminate G|].
    + destruct G as [s [l [-> G]]]. exists (s :: l). split; [exact Ev|]. eapply Forall_impl; [|exact G]. intros x [[[K|K] _] _]; [discriminate K|exact K].
    + injection G as <-. exists []. split; [exact Ev|constructor].
  - destruct (V (opt ["-p"; "--pin"] "pin" CPin (VList []) "Pin these layers/buttons") ltac:(do 6 right; left; reflexivity) ltac:(left; reflexivity)) as [v [Ev [[G|[G _]]|[_ G]]]]; [|discriminate G|].
    + right. destruct G as [s [-> [[[K|K] _] _]]]; [discriminate K|]. eauto.
    + left. injection G as <-. exact Ev.
Qed.
(** Help is shown, but not that of lulua-analyze triadfreq: "x% of" is taken for a format. *)
Theorem C97_help accepts pr : In pr programs -> parse_args accepts pr ["-h"] = Exit Help /\
  forall cmd sp, In (cmd, sp) (pr_subs pr) -> cmd <> "triadfreq" -> parse_args accepts pr [cmd; "-h"] = Exit Help.
Proof.
  intros H. cbn [programs In] in H. repeat (destruct H as [<-|H]; [split; [vm_compute; reflexivity|intros cmd sp S N; cbn [pr_subs In analyze_program render_program report_program import_program optimize_program write_program extract_program command] in S;
    repeat (destruct S as [S|S]; [injection S; intros _ <-; first [vm_compute; reflexivity|now elim N]|]); destruct S]|]). destruct H.
Qed.
Theorem C97_help_refuted : exists pr cmd, In pr programs /\ In cmd (map fst (pr_subs pr)) /\ forall accepts, parse_args accepts pr [cmd; "-h"] = Exit FormatError.
Proof. exists analyze_program, "triadfreq". split; [left; reflexivity|]. split; [vm_compute; tauto|]. intros accepts. vm_compute. reflexivity. Qed.
(** Programs are started without a command although they need one: args.func does not exist. *)
Theorem C97_func_refuted : exists pr args, In pr programs /\ pr_subs pr <> [] /\ forall accepts, exists ns, parse_args accepts pr args = Done ns /\ dget ns "func" = None.
Proof. exists analyze_program, ["-l"; "ar-lulua"]. split; [left; reflexivity|]. split; [discriminate|]. intros accepts. eexists. split; vm_compute; reflexivity. Qed.
Theorem C97_func_import_refuted : exists args, forall accepts, exists ns, parse_args accepts import_program args = Done ns /\ dget ns "func" = None.
Proof. exists ["layout.klc"]. intros accepts. eexists. split; vm_compute; reflexivity. Qed.
(** Of two "--" the second one can be lost as the only filter of lulua-write. *)
Theorem C97_write_needs_dashes : exists args, count "--" args = 2%Z /\ forall accepts, exists ns, parse_args accepts write_program args = Done ns /\ dget ns "filter" = Some (VList []).
Proof. exists ["--"; "ar-lulua"; "--"]. split; [reflexivity|]. intros accepts. eexists. split; vm_compute; reflexivity. Qed.
(** Options of the program are refused after the command, unless they and their value are one word. *)
Theorem C97_order accepts : 
  parse_args accepts render_program ["xmodmap"; "-l"; "ar-lulua"; "out"] = Exit Usage /\
  parse_args accepts render_program ["xmodmap"; "out"; "-l"; "ar-lulua"] = Exit Usage /\
  exists ns, parse_args accepts render_program ["xmodmap"; "out"; "--layout=ar-lulua"] = Done ns /\ dget ns "layout" = Some (strv "ar-lulua").
Proof. split; [vm_compute; reflexivity|]. split; [vm_compute; reflexivity|]. eexists. split; vm_compute; reflexivity. Qed.
Example C97_ex : exists ns, parse_args everything optimize_program ["-rn5"; "--mod"; "salvo"; "-sx"; "--mutate=y"] = Done ns /\
  dget ns "model" = Some (strv "salvo") /\ dget ns "steps" = Some (VConv CInt "5") /\ dget ns "mutate" = Some (VList [VConv CMutation "x"; VConv CMutation "y"]).
Proof. eexists. split; [vm_compute; reflexivity|]. repeat split. Qed.
Example C97_ex_ambiguous : parse_args everything optimize_program ["--m"; "salvo"] = Exit Usage.
Proof. vm_compute. reflexivity. Qed.

Print Assumptions C96_options.
Print Assumptions C96_analyze.
Print Assumptions C96_corpusstats.
Print Assumptions C96_render.
Print Assumptions C96_functions.
Print Assumptions C96_write.
Print Assumptions C96_extract.
Print Assumptions C96_import.
Print Assumptions C96_build.
Print Assumptions C96_build_needs_corpora.
Print Assumptions C97_ends.
Print Assumptions C97_values.
Print Assumptions C97_render.
Print Assumptions C97_write.
Print Assumptions C97_optimize.
Print Assumptions C97_help.
Print Assumptions C97_help_refuted.
Print Assumptions C97_func_refuted.
Print Assumptions C97_func_import_refuted.
Print Assumptions C97_write_needs_dashes.
Print Assumptions C97_order.
